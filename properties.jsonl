{"id": "C01", "title": "Appending bits appends exactly those bits", "statement": "append, append_bit, append_word and append_bits(w, n) with 1 <= n <= 64 extend the sequence of bits readable through get by exactly the requested bits (the low n bits of w, least significant first), leave every earlier bit unchanged, never panic, and do so even when the last limb holds junk left over from earlier calls.", "quantifier": "all bit vectors with any junk above their length, all words w, all n in 1..=64", "why_tests_cant": "correctness depends on the residue of the length mod 64, on n and on left-over junk bits in the last limb at once; tests sample a handful of the unbounded states", "anchors": ["src/bit_vec/mod.rs:append 725-735", "src/bit_vec/mod.rs:append_bit 799-810", "src/bit_vec/mod.rs:append_word 878-889", "src/bit_vec/mod.rs:append_bits 911-926"]}
{"id": "C02", "title": "Any sequence of editing calls behaves like editing a list of booleans", "statement": "For every program made of constructor calls and append/append_bit/append_word/append_bits/extend_bitvec/drop_last/flip_bit/set calls, the bits visible through get and len afterwards are those obtained by performing the same edits on a plain list of booleans; out-of-range set and flip_bit are rejected without changing anything.", "quantifier": "all finite sequences of editing operations with arbitrary arguments (append_bits lengths 1..=64), starting from any constructor", "why_tests_cant": "the state space of operation sequences is infinite and bugs hide in interactions (drop_last leaves junk that later appends must overwrite)", "anchors": ["src/bit_vec/mod.rs:drop_last 755-771", "src/bit_vec/mod.rs:extend_bitvec 967-981", "src/bit_vec/mod.rs:flip_bit 1011-1028", "src/bit_vec/mod.rs:set 1093-1114", "src/bit_vec/mod.rs:append_bits 911-926"]}
{"id": "C03", "title": "drop_last, extend and split_at are list truncation, concatenation and splitting", "statement": "drop_last(n) keeps exactly the first len-n bits (none if n > len); extend_bitvec appends the other vector's bits; split_at(at) returns the first at bits and the remaining bits when at <= len and hands back the unmodified vector otherwise; concatenating the halves gives the original bits.", "quantifier": "all pairs of well-formed bit vectors (with junk), all n and all split points", "why_tests_cant": "two-vector limb shifting has 64x64 alignment combinations times arbitrary length", "anchors": ["src/bit_vec/mod.rs:drop_last 755-771", "src/bit_vec/mod.rs:extend_bitvec 967-981", "src/bit_vec/mod.rs:split_at 1456-1526"]}
{"id": "C04", "title": "get_bits returns the little-endian value of the addressed slice", "statement": "get_bits(pos, n) is Some(v) with v the little-endian value of bits pos..pos+n exactly when 1 <= n <= 64 and pos+n <= len, and None otherwise; it never panics.", "quantifier": "all well-formed vectors, all pos and n", "why_tests_cant": "the read can straddle limbs at any of 64 offsets with any of 64 widths, and the None case must hold for all usize arguments", "anchors": ["src/bit_vec/mod.rs:get_bits 1165-1206"]}
{"id": "C05", "title": "Packing a sequence and unpacking it round-trips", "statement": "pack_sequence_uW / pack_from_iter_uW with n bits per element (n >= 1) produces len = n * count, and the bits of element i are the low min(n,W) bits of element i followed by zeros; hence unpack_element(i, n) returns element i mod 2^n for n <= 64.", "quantifier": "all sequences, all element widths 1.., all W in {8,16,32,64}", "why_tests_cant": "element boundaries fall on every limb offset; sequences and widths are unbounded", "anchors": ["src/bit_vec/mod.rs:pack_word_into_vector 360-371", "src/bit_vec/mod.rs:pack_sequence_u64 403", "src/bit_vec/mod.rs:unpack_element 1234-1258"]}
{"id": "C06", "title": "count_ones and count_zeros count the visible bits only", "statement": "count_ones is the number of set bits among the first len bits and count_zeros the number of unset ones, regardless of junk in the last limb.", "quantifier": "all well-formed bit vectors with arbitrary junk", "why_tests_cant": "junk content is not constructible systematically in tests", "anchors": ["src/bit_vec/mod.rs:count_ones 1266-1288"]}
{"id": "C07", "title": "Equality of bit vectors is equality of contents", "statement": "a == b holds exactly when a and b have the same length and the same bits.", "quantifier": "all pairs of well-formed bit vectors", "why_tests_cant": "tests compare a few vectors; whether unequal vectors can compare equal quantifies over all pairs", "anchors": ["src/bit_vec/mod.rs:PartialEq::eq 1590-1616"]}
{"id": "C08", "title": "Equal bit vectors hash equally", "statement": "If a == b then hashing a and hashing b feed the same data to the hasher; vectors with equal contents hash equally whatever junk they carry.", "quantifier": "all pairs of well-formed bit vectors, any hasher", "why_tests_cant": "hash/eq coherence is a relation between two functions over all pairs of vectors", "anchors": ["src/bit_vec/mod.rs:Hash::hash 1620-1631", "src/bit_vec/mod.rs:PartialEq::eq 1590-1616"]}
{"id": "C09", "title": "Mask operations act bitwise", "statement": "apply_mask_or/and/xor/custom and the lazy views mask_or/and/xor/custom (get, is_bit_set, count_ones, count_zeros, to_bit_vec) show at every position the bitwise combination of the two vectors, fail exactly when the lengths differ and then change nothing.", "quantifier": "all pairs of well-formed vectors, every limb operation that acts bitwise", "why_tests_cant": "an arbitrary user supplied operation and arbitrary junk on both sides cannot be enumerated", "anchors": ["src/bit_vec/mod.rs:mask_or 1296-1436", "src/bit_vec/mask.rs:MaskedBitVec 22-204"]}
{"id": "C10", "title": "Masked get_bits agrees with get_bits of the materialised mask", "statement": "For every lazily masked view m and all pos, n: m.get_bits(pos, n) equals m.to_bit_vec().get_bits(pos, n).", "quantifier": "all pairs of vectors of equal length, all pos and n", "why_tests_cant": "one width (64) at unaligned positions differs from all others; sampling misses it", "anchors": ["src/bit_vec/mask.rs:get_bits 111-161", "src/bit_vec/mod.rs:get_bits 1165-1206"]}
{"id": "C11", "title": "Constructors and editing calls keep the vector usable", "statement": "No documented call can leave a bit vector in a state in which later calls misbehave: after any constructor or editing call, in particular append_bits(w, 0), appending a bit b makes the last readable bit b.", "quantifier": "all reachable bit vectors, all n in 0..=64", "why_tests_cant": "reachability over operation sequences is unbounded; the zero-width append is the boundary case no test covers", "anchors": ["src/bit_vec/mod.rs:append_bits 911-926", "src/bit_vec/mod.rs:append_bits_unchecked 950-961", "src/bit_vec/mod.rs:pack_word_into_vector 360-371"]}
{"id": "C12", "title": "rank0 and rank1 count exactly", "statement": "For an RsVec built from any bit vector, rank1(p) (rank0(p)) is the number of 1 (0) bits among the first min(p, len) bits, for every p, without panicking; rank0(p) + rank1(p) = min(p, len).", "quantifier": "all bit vectors of any length with any junk, all positions p", "why_tests_cant": "block, super block and word boundaries only interact on large vectors; contents are unbounded", "anchors": ["src/bit_vec/fast_rs_vec/mod.rs:from_bit_vec 113-230", "src/bit_vec/fast_rs_vec/mod.rs:rank 240-309"]}
{"id": "C13", "title": "select0 and select1 return the position of the k-th bit", "statement": "For an RsVec built from any bit vector, select1(k) (select0(k)) is the position of the (k+1)-th 1 (0) bit if there are more than k of them and len otherwise; it never panics and always terminates.", "quantifier": "all bit vectors of any length with any junk, all k", "why_tests_cant": "the two-level binary search is guided by sampled select blocks whose correctness is an invariant over the whole construction; tests cover few densities", "anchors": ["src/bit_vec/fast_rs_vec/select.rs:select0 20-186", "src/bit_vec/fast_rs_vec/select.rs:select1 195-409", "src/bit_vec/fast_rs_vec/mod.rs:from_bit_vec 113-230", "src/util/pdep.rs:pdep_ 115-129"]}
{"id": "C14", "title": "rank and select are inverse to each other", "statement": "rank1(select1(k)) = k for every k below the number of ones, and select1(rank1(p)) = p for every p holding a one; likewise for zeros.", "quantifier": "all bit vectors, all k and p", "why_tests_cant": "a Galois-style law over all inputs", "anchors": ["src/bit_vec/fast_rs_vec/mod.rs:rank 240-309", "src/bit_vec/fast_rs_vec/select.rs:select0", "src/bit_vec/fast_rs_vec/select.rs:select1"]}
{"id": "C15", "title": "RsVec reads agree with the bit vector it was built from, and converting back loses nothing", "statement": "get(p) on the RsVec returns the bit of the source vector or None beyond its end; get_bits(p, n) returns the little-endian value of the slice when n <= 64 and p + n <= len and None otherwise, never panicking; into_bit_vec returns a vector with the same bits and length.", "quantifier": "all bit vectors, all p and n", "why_tests_cant": "checked accessors must be total; empty queries at the end are the boundary that tests omit", "anchors": ["src/bit_vec/fast_rs_vec/mod.rs:get 327-389", "src/bit_vec/fast_rs_vec/mod.rs:into_bit_vec 413-418"]}
{"id": "C16", "title": "RsVec equality is content equality on both code paths", "statement": "full_equals, sparse_equals::<true>, sparse_equals::<false> and == all return true exactly when both vectors have the same length and bits.", "quantifier": "all pairs of RsVecs, including those longer than the 4,000,000 bit switch-over", "why_tests_cant": "the sparse path is only taken on vectors larger than tests want to build", "anchors": ["src/bit_vec/fast_rs_vec/mod.rs:sparse_equals 436-456", "src/bit_vec/fast_rs_vec/mod.rs:full_equals 469-495", "src/bit_vec/fast_rs_vec/mod.rs:PartialEq 525-535"]}
{"id": "C17", "title": "iter0 and iter1 enumerate exactly the positions of the bits, from both ends", "statement": "Any interleaving of next() and next_back() on iter1/iter0 (and into_iter1/into_iter0) yields from the front the positions of the 1 (0) bits in ascending order and from the back in descending order, each exactly once, then None; len() is always the number still to come.", "quantifier": "all bit vectors, all finite interleavings of next and next_back", "why_tests_cant": "the iterator caches the last block and super block for each end; cache validity depends on the whole history", "anchors": ["src/bit_vec/fast_rs_vec/iter.rs:gen_iter_impl 74-431"]}
{"id": "C18", "title": "Skipping in select iterators is repeated stepping", "statement": "nth(n) and nth_back(n) on iter0/iter1 return what n+1 calls of next / next_back would return last, leave the iterator in the same state, and never panic, whatever n; last() and count() agree with exhausting the iterator.", "quantifier": "all bit vectors, all iterator states, all n", "why_tests_cant": "n ranges over usize including values beyond the remaining length", "anchors": ["src/bit_vec/fast_rs_vec/iter.rs:advance_by 332-348", "src/bit_vec/fast_rs_vec/iter.rs:advance_back_by 349-360", "src/bit_vec/fast_rs_vec/iter.rs:nth 361-421"]}
{"id": "C19", "title": "The generic vector iterators enumerate the vector from both ends", "statement": "The iterators of BitVec, RsVec and WaveletMatrix yield under any interleaving of next and next_back exactly the elements get would return, front to back resp. back to front, each once; len() is the number remaining; nth(n)/nth_back(n) with n below the remaining length skip exactly n elements.", "quantifier": "all vectors, all interleavings of next, next_back, nth, nth_back", "why_tests_cant": "histories are unbounded; Option-encoded back index has an underflow corner", "anchors": ["src/util/general_iter.rs:impl_vector_iterator"]}
{"id": "C20", "title": "nth past the end exhausts the generic iterators", "statement": "As required by the standard iterator contract, nth(n) with n at least the remaining length returns None and leaves the iterator exhausted.", "quantifier": "all vectors, all n", "why_tests_cant": "contract about the state after a failing call, for all n", "anchors": ["src/util/general_iter.rs:advance_by", "src/util/general_iter.rs:nth"]}
{"id": "C21", "title": "EliasFanoVec::get returns the stored elements", "statement": "For every non-decreasing slice, from_slice builds a vector whose get(i) is Some(slice[i]) for i < len and None otherwise.", "quantifier": "all non-decreasing sequences of u64 of any length, any admissible result of the floating point width computation", "why_tests_cant": "universe sizes and lengths are unbounded; the split into high and low bits depends on a floating point logarithm", "anchors": ["src/elias_fano/mod.rs:from_slice 81-134", "src/elias_fano/mod.rs:get_unchecked 151-190"]}
{"id": "C22", "title": "Elias-Fano predecessor is the largest element not above the query", "statement": "predecessor(q) is None iff all elements are greater than q (or the vector is empty), otherwise Some of the largest element <= q; it never panics.", "quantifier": "all non-decreasing sequences (with duplicates), all u64 queries", "why_tests_cant": "the in-block search switches between linear and binary search depending on the data", "anchors": ["src/elias_fano/mod.rs:predecessor 200-455", "src/elias_fano/mod.rs:search_element_in_block 218-411"]}
{"id": "C23", "title": "Elias-Fano successor is the smallest element not below the query", "statement": "successor(q) is None iff all elements are smaller than q (or the vector is empty), otherwise Some of the smallest element >= q; it never panics and terminates.", "quantifier": "all non-decreasing sequences (with duplicates), all u64 queries", "why_tests_cant": "as for predecessor, with an upper_bound - 1 subtraction that must never underflow", "anchors": ["src/elias_fano/mod.rs:successor 465-516", "src/elias_fano/mod.rs:search_element_in_block 218-411"]}
{"id": "C24", "title": "Elias-Fano rank counts smaller elements", "statement": "rank(q) is the number of elements strictly smaller than q.", "quantifier": "all non-decreasing sequences with duplicates, all u64 queries", "why_tests_cant": "duplicates interact with the binary search threshold", "anchors": ["src/elias_fano/mod.rs:rank 579-602", "src/elias_fano/mod.rs:search_element_in_block 218-411"]}
{"id": "C25", "title": "Elias-Fano delta is the difference of neighbours", "statement": "delta(i) is None for i >= len, element 0 itself for i = 0, and element i minus element i-1 otherwise.", "quantifier": "all non-decreasing sequences, all i", "why_tests_cant": "computed from bit patterns rather than from elements", "anchors": ["src/elias_fano/mod.rs:delta 537-574"]}
{"id": "C26", "title": "Elias-Fano iterators enumerate the elements from both ends", "statement": "Any interleaving of next and next_back on the Elias-Fano iterator yields the elements in order from the front and in reverse order from the back, each exactly once; len() is the number remaining; last() is the last remaining element; max/min are the largest/smallest remaining element.", "quantifier": "all non-decreasing sequences, all interleavings", "why_tests_cant": "state is a pair of select iterators; specialised last/max bypass next", "anchors": ["src/util/elias_fano_iter.rs:impl_ef_iterator"]}
{"id": "C27", "title": "SparseRSVec answers rank, select and access like the plain vector", "statement": "A SparseRSVec::new(positions, len) with strictly increasing positions below len has get(i)/is_set(i) = whether i is listed (None beyond len), rank1(i) = number of positions < i, rank0(i) = i - rank1(i), select1(k) = the k-th position, iter1 enumerates the positions; from_bitvec_inverted(bv)/From<BitVec> stores the positions of the zeros.", "quantifier": "all strictly increasing position lists, all lengths, all queries", "why_tests_cant": "built from Elias-Fano whose corner cases depend on density", "anchors": ["src/bit_vec/sparse.rs:new 65", "src/bit_vec/sparse.rs:from_bitvec 83", "src/bit_vec/sparse.rs:from_bitvec_inverted 130", "src/bit_vec/sparse.rs:get 151-220", "src/bit_vec/sparse.rs:From 244-254"]}
{"id": "C28", "title": "BinaryRmq::range_min returns an index of a minimum", "statement": "For every non-empty data vector and all i <= j < len, range_min(i, j) returns an index k with i <= k <= j and data[k] <= data[m] for all m in i..=j, without panicking.", "quantifier": "all sequences of u64 shorter than 2^32, all i <= j", "why_tests_cant": "n^2 queries over unbounded data; table rows near the end contain garbage entries that must never be read", "anchors": ["src/rmq/binary_rmq/mod.rs:from_vec", "src/rmq/binary_rmq/mod.rs:range_min"]}
{"id": "C29", "title": "FastRmq::range_min returns an index of a minimum", "statement": "For every non-empty data vector and all i <= j < len, range_min(i, j) returns an index k with i <= k <= j and data[k] <= data[m] for all m in i..=j, without panicking.", "quantifier": "all sequences of u64 whose length the constructor accepts, all i <= j", "why_tests_cant": "in-block, cross-block and full-block cases with 128-bit masks; data unbounded", "anchors": ["src/rmq/fast_rmq/mod.rs:from_vec", "src/rmq/fast_rmq/mod.rs:range_min", "src/rmq/fast_rmq/mod.rs:SmallBitVector"]}
{"id": "C30", "title": "range_min_with_range clamps its argument and does not panic on non-empty data", "statement": "On non-empty data range_min_with_range accepts every range (clamping to the data) and does not panic; for non-empty ranges it returns what range_min returns for the clamped bounds.", "quantifier": "all non-empty data, all RangeBounds", "why_tests_cant": "RangeBounds has nine shapes with arbitrary end points, including empty and inverted ones", "anchors": ["src/rmq/binary_rmq/mod.rs:range_min_with_range", "src/rmq/fast_rmq/mod.rs:range_min_with_range"]}
{"id": "C31", "title": "FastRmq accepts every input the documentation admits", "statement": "from_vec succeeds for every data vector with fewer than 2^40 elements.", "quantifier": "all vectors with fewer than 2^40 elements", "why_tests_cant": "needs terabyte inputs", "anchors": ["src/rmq/fast_rmq/mod.rs:from_vec", "src/rmq/binary_rmq/mod.rs:from_vec"]}
{"id": "C32", "title": "WaveletMatrix returns the encoded elements", "statement": "For a matrix built by from_slice(seq, k) or from_bit_vec, get_u64(i) is seq[i] mod 2^k, get_value(i) is the k-bit vector of seq[i] with the least significant bit first, and None is returned out of bounds; len is the number of elements.", "quantifier": "all sequences, all k >= 1 (k <= 64 for u64), all i", "why_tests_cant": "the permutation is different for every sequence", "anchors": ["src/wavelet/mod.rs:permutation_sorting 85-132", "src/wavelet/mod.rs:from_slice 164", "src/wavelet/mod.rs:get_value 331-403"]}
{"id": "C33", "title": "Both wavelet construction algorithms build the same matrix", "statement": "from_slice_pc(seq, k) and from_slice(seq, k) build identical matrices (hence answer every query identically) for sequences of k-bit words; likewise from_bit_vec_pc and from_bit_vec.", "quantifier": "all sequences of k-bit words, all k with 1 <= k <= 63", "why_tests_cant": "equivalence of a stable radix permutation with bit-reversed prefix counting, for all inputs", "anchors": ["src/wavelet/mod.rs:permutation_sorting 85-132", "src/wavelet/mod.rs:prefix_counting 184-228"]}
{"id": "C34", "title": "Wavelet rank counts occurrences of the symbol in the range", "statement": "rank_range(a..b, s), rank_offset, rank and their u64 versions return Some(number of positions in [a,b) whose element equals s) for valid arguments (a <= b <= len, a < len for ranges, s of k bits) and None for out-of-bounds ranges or wrong symbol width.", "quantifier": "all sequences, all ranges, all k-bit symbols", "why_tests_cant": "needs all levels of the matrix to map intervals consistently", "anchors": ["src/wavelet/mod.rs:rank_range_unchecked 422-755"]}
{"id": "C35", "title": "Wavelet select finds the r-th occurrence at or after the offset", "statement": "select_offset(o, r, s) is Some(position of the (r+1)-th occurrence of s at or after o) if it exists and None otherwise; select(r, s) is the case o = 0; also for symbols that do not occur at all.", "quantifier": "all sequences, offsets, ranks and k-bit symbols", "why_tests_cant": "absent symbols walk through other symbols' intervals; returning a wrong position would be silent", "anchors": ["src/wavelet/mod.rs:select_offset_unchecked 778-1023"]}
{"id": "C36", "title": "Wavelet quantile returns the k-th smallest element", "statement": "quantile(a..b, i) is the element at index i of the sorted slice seq[a..b] for a < b <= len and i < b - a, and None otherwise for non-inverted ranges; get_sorted, range_min, range_max, range_median are the corresponding order statistics.", "quantifier": "all sequences, all ranges, all i", "why_tests_cant": "order statistics over all inputs", "anchors": ["src/wavelet/mod.rs:partial_quantile_search_unchecked 1052-1560"]}
{"id": "C37", "title": "Wavelet predecessor and successor", "statement": "predecessor(a..b, s) is the largest element of seq[a..b] that is <= s (None if there is none, or for empty/out-of-bounds ranges); successor is the smallest element >= s.", "quantifier": "all sequences, ranges and k-bit symbols", "why_tests_cant": "the search remembers a fallback branch whose validity depends on the whole path", "anchors": ["src/wavelet/mod.rs:predecessor_generic_unchecked 1567-1748", "src/wavelet/mod.rs:successor_generic_unchecked 1751-1935"]}
{"id": "C38", "title": "Wavelet u64 queries respect the symbol's value even if it needs more than k bits", "statement": "rank_u64(i, s) counts elements equal to s and predecessor_u64(range, s) returns the largest element <= s for every u64 s, including s >= 2^k.", "quantifier": "all sequences of k-bit words, all u64 symbols", "why_tests_cant": "documentation does not exclude such symbols; the result must be right for all of them", "anchors": ["src/wavelet/mod.rs:rank_u64 749", "src/wavelet/mod.rs:predecessor_u64 1726"]}
{"id": "C39", "title": "Checked wavelet queries do not panic on inverted ranges", "statement": "rank_range, rank_range_u64, quantile and quantile_u64 return an Option for every range, also when start > end.", "quantifier": "all matrices, all ranges", "why_tests_cant": "Range<usize> values with start > end are legal arguments", "anchors": ["src/wavelet/mod.rs:rank_range 458", "src/wavelet/mod.rs:quantile 1105", "src/wavelet/mod.rs:quantile_u64 1234"]}
{"id": "C40", "title": "Wavelet iterators enumerate the sequence resp. its sorted version", "statement": "iter/iter_u64 yield the elements in sequence order, iter_sorted/iter_sorted_u64 in non-decreasing order as a permutation of the sequence.", "quantifier": "all sequences", "why_tests_cant": "universal over sequences", "anchors": ["src/wavelet/mod.rs:impl_vector_iterator 2065-2102", "src/wavelet/mod.rs:get_sorted 1125-1286"]}
{"id": "C41", "title": "BpTree::fwd_search finds the next position with the given relative excess", "statement": "fwd_search(i, d) is Some(j) with j the smallest position > i whose excess (opens minus closes up to and including it) equals the excess at i plus d, and None if there is none; no panic, also on unbalanced expressions.", "quantifier": "all parenthesis expressions (balanced or not), all block sizes, all i and d", "why_tests_cant": "the search crosses lookup bytes, blocks and min-max tree levels", "anchors": ["src/trees/bp/mod.rs:fwd_search 163-246", "src/trees/mmt.rs:fwd_search 216-337", "src/trees/bp/lookup_query.rs:process_block_fwd 200-215"]}
{"id": "C42", "title": "BpTree::bwd_search finds the previous position with the given relative excess", "statement": "bwd_search(i, d) is Some(j) with j the largest position < i such that the excess before j equals the excess before i plus d, and None if there is none; no panic, also on unbalanced expressions.", "quantifier": "all parenthesis expressions, all block sizes, all i < len and d", "why_tests_cant": "as C41, in the other direction, plus blocks not aligned to the lookup width", "anchors": ["src/trees/bp/mod.rs:bwd_search 256-333", "src/trees/mmt.rs:bwd_search 238-435", "src/trees/bp/lookup_query.rs:process_block_bwd 218-235"]}
{"id": "C43", "title": "open, close and enclose find matching and enclosing parentheses", "statement": "On the encoding of any tree, close maps each opening parenthesis to its matching closing one, open is its inverse, and enclose gives the opening parenthesis of the parent for both parentheses of a node.", "quantifier": "all ordered trees of any shape and size", "why_tests_cant": "universal over trees", "anchors": ["src/trees/bp/mod.rs:close 339-376"]}
{"id": "C44", "title": "Tree navigation follows the tree", "statement": "On the encoding of an ordered tree: root is 0; parent, first_child, last_child, next_sibling, previous_sibling applied to a node's handle return the handle of the respective node of the tree or None if it does not exist; is_leaf tells whether the node has no children.", "quantifier": "all ordered trees, all nodes", "why_tests_cant": "correspondence between an abstract tree and its encoding, for all trees", "anchors": ["src/trees/bp/mod.rs:impl Tree 546-665"]}
{"id": "C45", "title": "Node numbering, depth, size and subtree size", "statement": "node_index is the pre-order number of the node and node_handle its inverse; depth is the distance from the root; size the number of nodes; subtree_size the number of nodes in the subtree; is_ancestor(a, d) holds iff a is an ancestor of d or d itself.", "quantifier": "all ordered trees, all nodes and pairs of nodes", "why_tests_cant": "universal over trees", "anchors": ["src/trees/bp/mod.rs:node_index 629-665", "src/trees/bp/mod.rs:is_ancestor 668-684", "src/trees/bp/mod.rs:subtree_size 725-733"]}
{"id": "C46", "title": "Level navigation", "statement": "level_ancestor(n, l) is the ancestor l levels up (None above the root); level_next/level_prev give the next/previous node of the same depth in level order; level_leftmost(l)/level_rightmost(l) give the first/last node of depth l, None if the level is empty.", "quantifier": "all ordered trees, all nodes, all levels", "why_tests_cant": "degenerate trees (single node, paths) are the corners", "anchors": ["src/trees/bp/mod.rs:impl LevelTree 687-722"]}
{"id": "C47", "title": "The tree builder produces the tree that was traversed and reports imbalance", "statement": "A depth-first traversal calling enter_node/leave_node yields Ok with the encoding of the traversed tree; any sequence of calls with a different number of enters and leaves yields Err(enters - leaves).", "quantifier": "all traversals and all call sequences", "why_tests_cant": "universal over call sequences", "anchors": ["src/trees/bp/builder.rs:BpBuilder 10-61"]}
{"id": "C48", "title": "Tree iterators", "statement": "dfs_iter yields all nodes in pre-order, dfs_post_iter in post-order, subtree_iter/subtree_post_iter restricted to a subtree, children/rev_children the children in (reverse) order.", "quantifier": "all ordered trees, all nodes", "why_tests_cant": "universal over trees", "anchors": ["src/trees/bp/mod.rs:dfs_iter 396-506", "src/trees/bp/mod.rs:ChildrenIter 766-799"]}
{"id": "C49", "title": "Tree queries do not panic on empty or single-node trees", "statement": "fwd_search, level_leftmost, level_rightmost return an Option on the empty tree, None where no node exists; level_rightmost(0) on a single-node tree is the root.", "quantifier": "the degenerate trees, all arguments", "why_tests_cant": "documented no-panic guarantee must hold for all expressions including the empty one", "anchors": ["src/trees/bp/mod.rs:fwd_search 163", "src/trees/bp/mod.rs:level_leftmost 706", "src/trees/bp/mod.rs:level_rightmost 717"]}
{"id": "C50", "title": "bit_set_iter agrees with iter0/iter1", "statement": "The SIMD bit set iterators bit_set_iter0/bit_set_iter1 yield exactly the same positions as iter0/iter1.", "quantifier": "all bit vectors", "why_tests_cant": "needs AVX-512 hardware and the simd feature; tests leave the final chunk empty", "anchors": ["src/bit_vec/fast_rs_vec/bitset.rs:BitSetIter 85-163"]}
{"id": "C51", "title": "Exact meaning of bit vector equality", "statement": "a == b holds exactly when a and b have the same length and agree on all bits, except that for lengths that are a positive multiple of 64 the last 64 bits are not compared; == never panics.", "quantifier": "all pairs of well-formed bit vectors", "why_tests_cant": "Tests compare a handful of vectors; the claim covers all lengths and all junk contents of the last limb.", "anchors": ["src/bit_vec/mod.rs:PartialEq::eq 1590-1616"]}
{"id": "C52", "title": "Exact contract of the generic vector iterators", "statement": "For every sequence of next, next_back, nth, nth_back and len calls the iterators of BitVec and RsVec behave like a window of the value list, where nth(n)/nth_back(n) beyond the remaining length returns None and leaves the iterator unchanged, n equal to the remaining length exhausts it, and nth(n) panics exactly when n > 0 and the number of elements already passed at the front plus n does not fit a word.", "quantifier": "all vectors, all call sequences with all arguments", "why_tests_cant": "unbounded call histories and arguments up to 2^64-1", "anchors": ["src/util/general_iter.rs:advance_by 30-45", "src/util/general_iter.rs:advance_back_by 53-69", "src/util/general_iter.rs:nth 118-121"]}
{"id": "C53", "title": "Exact contract of the Elias-Fano iterators", "statement": "For every sequence of next, next_back, nth, nth_back and len calls the iterators behave like a window of the element list, where nth(n)/nth_back(n) beyond the remaining length returns None and changes nothing, and nth(n) panics exactly when n > 0 and the number of elements passed at the front plus n does not fit a word; last() and max() return the last remaining element minus the first element of the vector, min() the first remaining element.", "quantifier": "all non-decreasing sequences, all call sequences with all arguments", "why_tests_cant": "unbounded interleavings; the off-by-universe error of last/max is invisible when the vector starts at zero", "anchors": ["src/util/elias_fano_iter.rs:impl_ef_iterator"]}
{"id": "C54", "title": "The Elias-Fano width assertion holds and the upper vector has linear size", "statement": "With exact logarithms the computed lower width is below 64 for every non-empty non-decreasing sequence, so the assertion in from_slice holds, and the upper vector has at most 3 * len + 2 bits.", "quantifier": "all non-empty non-decreasing sequences of u64", "why_tests_cant": "resource bound over all sequences", "anchors": ["src/elias_fano/mod.rs:from_slice 103-112"]}
{"id": "C55", "title": "SparseRSVec unchecked access agrees with checked access inside the vector", "statement": "For every i below the length, is_set_unchecked(i) and get_unchecked(i) return the bit at position i without panicking.", "quantifier": "all strictly increasing position lists, all lengths, all i < len", "why_tests_cant": "the failing positions are those left of the first set bit", "anchors": ["src/bit_vec/sparse.rs:is_set_unchecked 151-153", "src/elias_fano/mod.rs:predecessor_unchecked 425-455"]}
{"id": "C56", "title": "BinaryRmq::range_min_with_range: exact contract", "statement": "On non-empty data range_min_with_range panics exactly when the start bound is Excluded(2^64-1), the end bound is Excluded(0), or the clamped start exceeds the clamped end; otherwise it returns the position of a minimum of the clamped range.", "quantifier": "all non-empty data, all pairs of bounds", "why_tests_cant": "bounds range over all 64-bit values in nine combinations", "anchors": ["src/rmq/binary_rmq/mod.rs:range_min_with_range"]}
{"id": "C57", "title": "FastRmq::from_vec: exact length limit", "statement": "from_vec succeeds for every vector of at most 2^39-128 elements and panics for every longer one.", "quantifier": "all vectors", "why_tests_cant": "the limit is reached only by terabyte inputs", "anchors": ["src/rmq/fast_rmq/mod.rs:from_vec", "src/rmq/binary_rmq/mod.rs:from_vec"]}
{"id": "C58", "title": "Wavelet u64 queries: exact treatment of wide symbols", "statement": "rank_range_u64(a..b, s), predecessor_u64 and successor_u64 answer for s mod 2^k, for every 64-bit s.", "quantifier": "all matrices, all ranges with start <= end, all u64 symbols", "why_tests_cant": "all symbols beyond the alphabet", "anchors": ["src/wavelet/mod.rs:rank_range_u64_unchecked", "src/wavelet/mod.rs:predecessor_u64 1726", "src/wavelet/mod.rs:successor_u64"]}
{"id": "C59", "title": "Wavelet select: exact contract", "statement": "select_offset(o, r, s) and select_offset_u64 either return the position of the (r+1)-th occurrence of s at or after o (None if there is none), or panic, and panic only if len + r >= 2^64.", "quantifier": "all matrices, offsets, ranks and symbols", "why_tests_cant": "ranks range over all 64-bit values", "anchors": ["src/wavelet/mod.rs:select_offset_unchecked 778-1023"]}
{"id": "C60", "title": "Wavelet queries on inverted ranges: exact outcome", "statement": "For b < a < len, quantile(a..b, i) panics for every i, and rank_range(a..b, s) is Some(0) if s does not occur in seq[b..a] and panics otherwise; likewise the u64 versions.", "quantifier": "all matrices, all inverted ranges, all symbols", "why_tests_cant": "depends on the contents between the swapped bounds", "anchors": ["src/wavelet/mod.rs:rank_range 458", "src/wavelet/mod.rs:quantile 1105"]}
{"id": "C61", "title": "Exact behaviour of the searches on an empty expression", "statement": "On the empty expression fwd_search panics for all arguments, level_leftmost(0) is Some(0), level_leftmost(l) for l >= 1 and level_rightmost(l) for every l panic.", "quantifier": "all arguments", "why_tests_cant": "complements C49, which is false; the panics come from len - 1 and size * 2 - 1 underflowing", "anchors": ["src/trees/bp/mod.rs:fwd_search 163", "src/trees/bp/mod.rs:level_leftmost 706-715", "src/trees/bp/mod.rs:level_rightmost 717-721"]}
{"id": "C62", "title": "Exact corners of the level queries", "statement": "On a single-node tree level_rightmost(0) is None; on every tree level_leftmost(2^64-1) is the closing parenthesis of the root, and level_ancestor(n, 2^63) panics.", "quantifier": "all ordered trees", "why_tests_cant": "complements C46, which is false in these corners; casts from usize to i64 wrap", "anchors": ["src/trees/bp/mod.rs:impl LevelTree 687-722"]}
{"id": "C63", "title": "open, close and enclose for aligned block sizes", "statement": "C43 for every block size that divides the lookup width (8, or 16 with bp_u16_lookup) or is a multiple of it, among them the default 512.", "quantifier": "all ordered trees of fewer than 2^63 - 2 parentheses, all nodes, both lookup modules", "why_tests_cant": "C43 is false for other block sizes; universal over trees", "anchors": ["src/trees/bp/mod.rs:close 339-376", "src/trees/bp/lookup.rs 69-194", "src/trees/bp/lookup_query.rs 45-235"]}
{"id": "C64", "title": "Tree navigation for aligned block sizes", "statement": "C44 for every block size that divides the lookup width or is a multiple of it.", "quantifier": "all ordered trees of fewer than 2^63 - 2 parentheses, all nodes, both lookup modules", "why_tests_cant": "C44 is false for other block sizes; universal over trees", "anchors": ["src/trees/bp/mod.rs:impl Tree 546-665"]}
{"id": "C65", "title": "Tree iterators for aligned block sizes", "statement": "C48 for every block size that divides the lookup width or is a multiple of it.", "quantifier": "all ordered trees of fewer than 2^63 - 2 parentheses, all nodes, both lookup modules", "why_tests_cant": "the backward iterators are wrong for other block sizes; universal over trees", "anchors": ["src/trees/bp/mod.rs:dfs_iter 396-506", "src/trees/bp/mod.rs:ChildrenIter 766-799"]}
{"id": "C66", "title": "Navigation on unbalanced expressions does not panic", "statement": "On any expression with fewer than 2^63 - 2 parentheses (aligned block size), every function of Tree, IsAncestor, LevelTree and SubtreeSize called with positions of opening parentheses returns normally; on an expression without opening parenthesis level_rightmost panics.", "quantifier": "all expressions, balanced or not, all positions of opening parentheses, all levels l with l + len <= 2^63 - 1", "why_tests_cant": "the documentation promises this for all expressions; tests use a handful", "anchors": ["src/trees/bp/mod.rs:impl Tree 546-733"]}
{"id": "C67", "title": "What the bit set iterators yield", "statement": "Vectors of at most 16 bits: the matching positions. Longer vectors, with b the start of the last 16-bit chunk: the matching positions below b, then the matching positions among the 16 stored bits at b (including those past the length), then the matching positions from b on again; afterwards None forever.", "quantifier": "all bit vectors, both bit values, any number of calls", "why_tests_cant": "exact description of a wrong behaviour that the tests do not reach", "anchors": ["src/bit_vec/fast_rs_vec/bitset.rs:BitSetIter 85-163"]}
{"id": "C68", "title": "AVX-512 block search in select", "statement": "With the AVX-512 block search in place of the scalar one, select0 and select1 of a vector built from any bit vector return the position of the k-th 0/1 (or the length if there is none), and next/next_back of the select iterators return the same values and states as the scalar code; in particular no vector load leaves the block vector.", "quantifier": "all bit vectors, all ranks, all iterator states reached by any sequence of calls", "why_tests_cant": "the code only exists on machines with AVX-512 and depends on where super-blocks end", "anchors": ["src/bit_vec/fast_rs_vec/select.rs:search_block0 59-83", "src/bit_vec/fast_rs_vec/select.rs:search_block1 241-299", "src/bit_vec/fast_rs_vec/iter.rs"]}
{"id": "C69", "title": "SparseRSVec unchecked access: exact contract", "statement": "get_unchecked and is_set_unchecked at a position inside the vector return the bit if some set bit is at or left of the position, and panic otherwise.", "quantifier": "all strictly increasing position lists, all lengths, all positions inside, all low-part widths", "why_tests_cant": "exact description of when an undocumented panic happens", "anchors": ["src/bit_vec/sparse.rs:is_set_unchecked", "src/bit_vec/sparse.rs:get_unchecked"]}
{"id": "C70", "title": "Wavelet constructors: accepted arguments", "statement": "from_slice succeeds exactly for k <= 64. from_slice_pc succeeds exactly if k < 64, every element is below 2^k, and k > 0 unless the slice is empty; the result is that of from_slice. from_bit_vec succeeds exactly if k > 0 and k divides the length. from_bit_vec_pc additionally needs k < 64, and gives the same matrix. In all other cases they panic.", "quantifier": "all slices of words, all well-formed bit vectors, all widths k", "why_tests_cant": "exact set of accepted arguments; the documentation says 64 bits are fine for the counting constructors", "anchors": ["src/wavelet/mod.rs:from_bit_vec 146-152", "src/wavelet/mod.rs:from_slice 164-172", "src/wavelet/mod.rs:prefix_counting 184-228", "src/wavelet/mod.rs:from_bit_vec_pc 249-267", "src/wavelet/mod.rs:from_slice_pc 285-296"]}
{"id": "C71", "title": "Wavelet matrix with zero bits per element", "statement": "from_slice with k = 0 gives a matrix of length 0 whatever the slice. Access, rank of non-empty prefixes, rank on ranges, select (rank below 2^64), quantiles, range minimum/maximum/median, predecessor and successor answer None without panic, rank of the empty prefix is 0, and the iterators are empty.", "quantifier": "all slices, all query arguments", "why_tests_cant": "degenerate width; all arguments of all queries", "anchors": ["src/wavelet/mod.rs:from_slice 164-172", "src/wavelet/mod.rs:impl WaveletMatrix"]}
{"id": "C72", "title": "Size of bit vectors and rank/select vectors", "statement": "A bit vector of n bits uses 8*ceil(n/64) bytes. A rank/select vector with n bits of which z are 0 uses exactly 8*ceil(n/64) + 2*ceil(n/512) + 8*ceil(n/8192) + 16*(max(z/8192, (64*ceil(n/64)-z)/8192) + 2) bytes. So the overhead is at most 28 bits per 512 bits plus 337 bits, and vectors of ones reach the rate.", "quantifier": "all well-formed bit vectors", "why_tests_cant": "documented space bound for every length; tests check no sizes", "anchors": ["src/bit_vec/mod.rs:heap_size 1441-1443", "src/bit_vec/fast_rs_vec/mod.rs:heap_size 500-505", "src/bit_vec/fast_rs_vec/mod.rs:from_bit_vec"]}
{"id": "C73", "title": "Size of Elias-Fano vectors: documented bound", "statement": "With the low-part width w from exact logarithms, an Elias-Fano vector of n elements uses at most n*w + (3n+2)*(1+28/512) + 463 bits.", "quantifier": "all non-decreasing lists of words", "why_tests_cant": "space bound over all inputs; dense inputs break it", "anchors": ["src/elias_fano/mod.rs:from_slice", "src/elias_fano/mod.rs:heap_size 607-609"]}
{"id": "C74", "title": "Size of Elias-Fano and sparse vectors: exact", "statement": "An Elias-Fano vector with n > 0 elements and low parts of w bits uses exactly the bytes of a rank/select vector of 2 + n + (max-min)/2^w bits with n ones, plus 8*ceil(n*w/64) bytes, or 8n bytes if w = 0. A sparse vector uses the same for its positions. Data for which the exact width is 0 uses more than 8 bytes per element.", "quantifier": "all non-decreasing lists of words, all widths below 64", "why_tests_cant": "exact size over all inputs", "anchors": ["src/elias_fano/mod.rs:heap_size 607-609", "src/bit_vec/sparse.rs:heap_size 239-241"]}
{"id": "C75", "title": "Size of the range minimum structures", "statement": "BinaryRmq over n elements uses 8n + 4n(ceil(log2 n)+1) bytes. FastRmq uses 8n + 41c + 4c(ceil(log2 c)+1) bytes with c = ceil(n/128).", "quantifier": "all lists of words the constructors accept", "why_tests_cant": "documented space bound for every length", "anchors": ["src/rmq/binary_rmq/mod.rs:heap_size 165-167", "src/rmq/fast_rmq/mod.rs:heap_size 287-292"]}
{"id": "C76", "title": "Size of wavelet matrices and trees", "statement": "A wavelet matrix uses the sum over the k bit positions of the size of a rank/select vector of n bits, with as many zeros as elements have a 0 at that bit; hence at most k times the bound of C72. A balanced parenthesis tree uses the size of its rank/select vector plus 24 bytes for each of the at most 3*ceil(len/B) nodes of its min-max tree; the exact number of nodes is given.", "quantifier": "all matrices built by any constructor; all bit vectors and block sizes B > 0", "why_tests_cant": "exact size over all inputs", "anchors": ["src/wavelet/mod.rs:heap_size 2060-2062", "src/trees/mmt.rs:heap_size 440-442", "src/trees/bp/mod.rs:heap_size 541-543"]}
{"id": "C77", "title": "Release builds: wavelet queries on inverted ranges", "statement": "Without overflow checks rank_range(a..b) with b < a < len does not panic: it returns (2^64 - c) mod 2^64, where c is the number of occurrences of the symbol in b..a. quantile(a..b, i) returns the minimum of b..a for every i < 2^64 - (a - b), and None above.", "quantifier": "all matrices built by any constructor, all inverted ranges inside the sequence, all symbols and ranks", "why_tests_cant": "tests run with overflow checks; wrapped arguments are astronomically rare", "anchors": ["src/wavelet/mod.rs:rank_range_unchecked 423-434", "src/wavelet/mod.rs:quantile 1063-1111"]}
{"id": "C78", "title": "Release builds: select with an overflowing rank", "statement": "Without overflow checks select_offset(o, r, s) with r plus the number of occurrences of s before o at least 2^64 returns the occurrence whose rank in the whole sequence is that sum minus 2^64. This is an occurrence before the offset, although no occurrence of that rank after the offset exists.", "quantifier": "all matrices built by any constructor of length below 2^63, all offsets, symbols and 64-bit ranks", "why_tests_cant": "tests run with overflow checks; wrapped arguments are astronomically rare", "anchors": ["src/wavelet/mod.rs:select_offset_unchecked 778-801", "src/wavelet/mod.rs:select_offset_u64_unchecked 858-881"]}
{"id": "C79", "title": "Release builds: range minimum by range bounds", "statement": "Without overflow checks range_min_with_range clamps both ends to the array and reads an excluded end 0 as the last index; if the clamped start is not behind the clamped end, the result is the position of a minimum of the clamped range (BinaryRmq and FastRmq), so the empty range 0..0 returns the position of the minimum of everything. BinaryRmq::range_min(i, j) with j < i < len panics with an index out of bounds.", "quantifier": "all non-empty arrays the constructors accept, all range bounds below 2^64", "why_tests_cant": "tests run with overflow checks; wrapped arguments are astronomically rare", "anchors": ["src/rmq/binary_rmq/mod.rs:range_min_with_range 125-160", "src/rmq/fast_rmq/mod.rs:range_min_with_range 171-186"]}
{"id": "C80", "title": "Release builds: nth of the vector iterators can go back", "statement": "Without overflow checks, after i calls of next, nth(2^64 - d) with 0 < d < i returns the element at index i - d, and the iterator continues from there, even if it was exhausted.", "quantifier": "all bit vectors and rank/select vectors (any vector with a correct getter), all i up to the length, all 0 < d < i, all later calls", "why_tests_cant": "tests run with overflow checks; wrapped arguments are astronomically rare", "anchors": ["src/util/general_iter.rs:advance_by 30-45", "src/util/general_iter.rs:nth 118-121"]}
{"id": "C81", "title": "Release builds: nth_back past the front of a select iterator", "statement": "Without overflow checks, on a fresh select iterator with c > 0 elements nth_back(c) panics with an index out of bounds. nth_back(n) with n > c returns None and len becomes 0, but next still returns all elements in order.", "quantifier": "all bit vectors below 2^63 bits, both bit values, all n, all numbers of following calls of next", "why_tests_cant": "tests run with overflow checks; wrapped arguments are astronomically rare", "anchors": ["src/bit_vec/fast_rs_vec/iter.rs:advance_back_by 349-360", "src/bit_vec/fast_rs_vec/iter.rs:nth_back 412-419"]}
{"id": "C82", "title": "Which minimum BinaryRmq returns", "statement": "Among equal minima of i..=j, BinaryRmq::range_min returns the last one in the left half i..=i+2^floor(log2(j-i))-1 if the minimum occurs there, and otherwise the last one of the range. This determines the index, and it is neither always the first nor always the last minimum.", "quantifier": "all arrays the constructor accepts, all i <= j < len", "why_tests_cant": "ties and the split point vary with every range; tests compare values or few ranges", "anchors": ["src/rmq/binary_rmq/mod.rs:from_vec", "src/rmq/binary_rmq/mod.rs:range_min 149-160"]}
{"id": "C83", "title": "Which minimum FastRmq returns", "statement": "If i and j lie in the same block of 128 elements, FastRmq::range_min returns the first minimum of i..=j. Otherwise it returns the last minimum in i's block if the minimum occurs there, else the first in j's block, else the first of the middle block that C82's rule chooses on the block minima. On ties it can differ from BinaryRmq.", "quantifier": "all arrays the constructor accepts, all i <= j < len", "why_tests_cant": "needs ties across several blocks of 128 elements, in every arrangement", "anchors": ["src/rmq/fast_rmq/mod.rs:from_vec 100-160", "src/rmq/fast_rmq/mod.rs:range_min 199-280"]}
{"id": "C84", "title": "Masked get_bits: exact result", "statement": "MaskedBitVec::get_bits equals get_bits of the materialised mask, except that a read of 64 bits inside the vector at a position that is not a multiple of 64 returns Some(0), whatever the bits are.", "quantifier": "all pairs of bit vectors of equal length, all bitwise operations, all positions and widths", "why_tests_cant": "the wrong result appears only at width 64 and unaligned positions", "anchors": ["src/bit_vec/mask.rs:get_bits 111-120", "src/bit_vec/mask.rs:get_bits_unchecked 142-161"]}
{"id": "C85", "title": "Sparse and dense vectors agree", "statement": "SparseRSVec::from_bitvec and RsVec::from_bit_vec of the same bits return the same get, rank0, rank1 and select1 for every argument, also past the end. SparseRSVec::from_bitvec_inverted has rank0 and rank1 exchanged, and its select1 is RsVec's select0.", "quantifier": "all bit vectors below 2^64 bits, all Elias-Fano widths below 64, all arguments below 2^64", "why_tests_cant": "tests compare random vectors of few sizes", "anchors": ["src/bit_vec/sparse.rs:from_bitvec", "src/bit_vec/fast_rs_vec/mod.rs:from_bit_vec"]}
{"id": "C86", "title": "A wavelet matrix of single bits agrees with RsVec", "statement": "WaveletMatrix::from_bit_vec(bits, 1) and RsVec::from_bit_vec(bits) give the same elements and, up to the length, the same rank0/rank1; select differs only in reporting None where RsVec reports the length.", "quantifier": "all bit vectors, all positions, all ranks with len + rank < 2^64", "why_tests_cant": "tests compare random vectors of few sizes", "anchors": ["src/wavelet/mod.rs:from_bit_vec", "src/bit_vec/fast_rs_vec/mod.rs:from_bit_vec"]}
{"id": "C87", "title": "Both range minimum structures find the same value", "statement": "For every range, the elements at the indices BinaryRmq and FastRmq return are equal, even where the indices differ.", "quantifier": "all arrays both constructors accept, all i <= j < len", "why_tests_cant": "the two structures are tested separately", "anchors": ["src/rmq/binary_rmq/mod.rs:range_min 149-160", "src/rmq/fast_rmq/mod.rs:range_min 199-280"]}
{"id": "C88", "title": "Release builds: get_bits with an overflowing end", "statement": "Without overflow checks get_bits(pos, n) equals the debug build's if pos + n < 2^64. Otherwise it never returns bits: it panics if n is in 1..=64 and the wrapped end is within the vector, and returns None in all other cases.", "quantifier": "all bit vectors up to 2^64 - 128 bits, all pos and n below 2^64", "why_tests_cant": "tests run with overflow checks; wrapped arguments are astronomically rare", "anchors": ["src/bit_vec/mod.rs:get_bits 1165-1174"]}
{"id": "C89", "title": "Unchecked access to bit vectors", "statement": "The unchecked accessors read and write exactly the addressed bit inside the vector. Between the length and the next multiple of 64, reads return some bit and writes leave the contents unchanged; from there on they panic. get_bits_unchecked and unpack_element_unchecked return the value of the addressed slice; is_empty says whether there are no bits.", "quantifier": "all bit vectors with any stored bits above the length, all positions, all values", "why_tests_cant": "documentation leaves the behaviour outside the vector open; tests do not look at stored bits above the length", "anchors": ["src/bit_vec/mod.rs:is_empty 991", "src/bit_vec/mod.rs:flip_bit_unchecked 1026-1028", "src/bit_vec/mod.rs:get_unchecked 1067-1069", "src/bit_vec/mod.rs:set_unchecked 1111-1114", "src/bit_vec/mod.rs:get_bits_unchecked 1197-1206", "src/bit_vec/mod.rs:unpack_element_unchecked 1256-1258"]}
{"id": "C90", "title": "How many steps select0 takes", "statement": "For a rank outside the last select block, select0 is done after at most log2_up(len/8192 + 1) halvings and 8 linear steps. In the last select block the binary search never runs, and the number of linear steps is exactly the distance in super-blocks between the answer and the select sample; it exceeds every multiple of the logarithm of the length, so the documented worst case does not hold.", "quantifier": "all bit vectors, all valid ranks, all step budgets; no constant c", "why_tests_cant": "a test measures time on a few inputs; a bound on the number of steps needs all of them", "anchors": ["src/bit_vec/fast_rs_vec/mod.rs:module documentation 1-2", "src/bit_vec/fast_rs_vec/select.rs:select0 20-41", "src/bit_vec/fast_rs_vec/select.rs:search_super_block0 165-186"]}
{"id": "C91", "title": "How many steps select1 takes", "statement": "The binary search of select1 never advances: for every rank the number of linear steps is exactly the distance in super-blocks between the answer and the select sample. It exceeds every multiple of the logarithm of the length even outside the last select block.", "quantifier": "all bit vectors, all valid ranks, all step budgets; no constant c", "why_tests_cant": "the answers are right, only the number of steps is not", "anchors": ["src/bit_vec/fast_rs_vec/select.rs:select1 195-222", "src/bit_vec/fast_rs_vec/select.rs:search_super_block1 387-409"]}
{"id": "C92", "title": "How many steps Elias-Fano predecessor and successor take", "statement": "Besides their select queries, predecessor and successor take at most four linear steps and log2_up(n) halvings. Counting the steps of select0 they exceed every multiple of log(n), so the documented worst case does not hold.", "quantifier": "all sorted sequences, all widths, all queries; no constant c", "why_tests_cant": "a test measures time on a few inputs", "anchors": ["src/elias_fano/mod.rs:documentation 196, 415, 461, 476", "src/elias_fano/mod.rs:search_element_in_block 218-411"]}
{"id": "C93", "title": "How many steps Elias-Fano rank takes", "statement": "Besides its select queries, rank takes at most four linear steps, log2_up(n) halvings, and as many steps back as there are elements equal to the query.", "quantifier": "all sorted sequences, all widths, all queries", "why_tests_cant": "a test measures time on a few inputs", "anchors": ["src/elias_fano/mod.rs:rank 579-602", "src/elias_fano/mod.rs:search_element_in_block 218-411"]}
{"id": "C94", "title": "How many steps tree navigation takes", "statement": "fwd_search, bwd_search and every operation built on them (close, open, enclose, parent, siblings, last child, ancestor and level queries, subtree size) walk at most h nodes up and h nodes down the min-max tree, where h is the ceiling logarithm of the number of blocks but at least 1; inside a block each loop reads at most as many single bits as a table lookup covers and makes at most ceil(block size / lookup width) lookups.", "quantifier": "all bit sequences, all block sizes, both lookup modules, all arguments, including invalid ones", "why_tests_cant": "a test measures time on a few inputs", "anchors": ["src/trees/bp/mod.rs:documentation 1-3 and 42", "src/trees/bp/mod.rs:fwd_search 163-246", "src/trees/bp/mod.rs:bwd_search 256-333", "src/trees/mmt.rs:searches 216-435"]}
{"id": "C95", "title": "How many steps node_handle takes", "statement": "The number of super-blocks node_handle walks over is exactly the distance between the answer and the select sample. For trees it exceeds every multiple of the logarithm of the number of nodes, so the documented O(log n) for all operations does not hold.", "quantifier": "all bit sequences, all ranks of nodes, all step budgets; for the refutation trees of any size and every block size", "why_tests_cant": "the answers are right, only the number of steps is not", "anchors": ["src/trees/bp/mod.rs:documentation 42", "src/trees/bp/mod.rs:node_handle 637-639"]}
{"id": "C96", "title": "EliasFanoVec::get_unchecked for every index", "statement": "get_unchecked returns the element for an index inside the vector. The documentation promises a panic for an index beyond it, but the function may return a number that is not an element: with n elements, base value z and t = (last - z) / 2^w, index i gives (1 + n + t - i) * 2^w mod 2^64 + z if i < 2 + n + t and the low part still lies in the limbs, and panics otherwise.", "quantifier": "all non-decreasing sequences of 64-bit numbers, every low width below 64, all indices", "why_tests_cant": "the documented panic does occur for many vectors and indices; whether it does depends on unused bits of the last limb", "anchors": ["src/elias_fano/mod.rs:get_unchecked 175-190"]}
{"id": "C97", "title": "EliasFanoVec::predecessor_unchecked and successor_unchecked for every query", "statement": "If the predecessor or successor exists, the unchecked query returns it. If it does not, predecessor_unchecked panics, and successor_unchecked returns what get_unchecked returns behind the end when the query lies at most one block above the last element, an element below the query when it lies 2 to n blocks above, and panics otherwise.", "quantifier": "all non-decreasing sequences of 64-bit numbers, every low width below 64, all 64-bit queries", "why_tests_cant": "out-of-range queries are not tested, and the outcome depends on the distance from the last element", "anchors": ["src/elias_fano/mod.rs:predecessor_unchecked 413-455", "src/elias_fano/mod.rs:successor_unchecked 474-516"]}
{"id": "C98", "title": "pdep in software, by the instruction, and as documented agree", "statement": "For an unsigned type of any width, the software loop terminates without overflow and returns the value whose bit at each set position of the mask is the bit of the value with that position's rank in the mask, and 0 elsewhere. The pseudo-code of the processor instruction returns the same, so select gives the same answers whether or not the instruction is compiled in.", "quantifier": "all widths above 0, all values, all masks of that width", "why_tests_cant": "the instruction is only compiled on processors with BMI2, and a test run exercises one of the two variants", "anchors": ["src/util/pdep.rs:pdep_ 113-131", "src/util/pdep.rs:pdep_ 139-144"]}
{"id": "C99", "title": "pdep for signed types in a debug build", "statement": "The software loop instantiated for a signed type panics in a debug build exactly when the mask is negative, because mask - 1 overflows once only the sign bit is left; for all other masks it returns the documented value. So the documented result for every mask does not hold.", "quantifier": "all widths above 0, all values, all masks", "why_tests_cant": "the signed implementations are not called by the library, and the tests use no negative mask", "anchors": ["src/util/pdep.rs:pdep_ 113-131", "src/util/pdep.rs:impl_pdep 158-187"]}
{"id": "C100", "title": "Ceiling logarithms computed in f64", "statement": "(n as f64).log2().ceil() lies between the floor logarithm and one more, is exact for powers of two, and is the exact ceiling logarithm for n below 2^48, for any log2 with an error below one unit in the last place. It is not exact for every n: a correctly rounded log2 gives 50 for 2^50 + 1.", "quantifier": "all n from 1 to 2^64 - 1, all implementations of log2 within one unit in the last place", "why_tests_cant": "a test can only sample n, and the result depends on the platform's log2", "anchors": ["src/elias_fano/mod.rs:from_slice 106-108", "src/trees/mmt.rs:excess_tree 53"]}
{"id": "C101", "title": "f64 rounding does not damage the structures that use it", "statement": "The lower width that EliasFanoVec::from_slice computes from f64 logarithms does not underflow and is below 64, the construction succeeds, and the upper vector has at most 5n + 2 bits; for universes below 2^48 the width is the exact one. The min-max tree allocates the exact number of inner nodes for fewer than 2^48 leaves. Rounding is visible: two elements 2^50 + 1 apart get width 49 in place of 50.", "quantifier": "all non-decreasing sequences of 64-bit numbers with fewer than 2^48 - 2 elements, all numbers of leaves below 2^48, all implementations of log2 within one unit in the last place", "why_tests_cant": "the sequences whose width is rounded need universes above 2^48, and other platforms round differently", "anchors": ["src/elias_fano/mod.rs:from_slice 104-109", "src/trees/mmt.rs:excess_tree 53"]}
{"id": "C102", "title": "Unchecked rank and select of the wavelet matrix for every argument", "statement": "Unchecked rank clamps both ends of the range to the length, and counts the symbol in the clamped range. If that range is inverted, the function returns 0 if the symbol does not occur between its ends and panics otherwise. Unchecked select with any offset returns the position of the occurrence, or the length if there are too few occurrences; it panics only if length plus rank overflows.", "quantifier": "all sequences, all bit widths, all ranges, offsets, ranks and symbols", "why_tests_cant": "unchecked functions are only tested with valid arguments", "anchors": ["src/wavelet/mod.rs:rank_range_unchecked 422", "src/wavelet/mod.rs:rank_offset_unchecked 551", "src/wavelet/mod.rs:rank_unchecked 674", "src/wavelet/mod.rs:select_offset_unchecked 778"]}
{"id": "C103", "title": "WaveletMatrix::get_value_unchecked and get_u64_unchecked beyond the end", "statement": "An index at or beyond the length panics exactly if it is at least the length rounded up to a multiple of 64. Otherwise the result is 0 if all elements are 0, and else the first element that has the highest bit occurring in any element, without that bit. So the documented outcome, a panic or an empty result, does not hold.", "quantifier": "all sequences, all bit widths, all indices from the length on", "why_tests_cant": "the result depends on the contents of the whole matrix and the padding of the last limb", "anchors": ["src/wavelet/mod.rs:get_value_unchecked 350", "src/wavelet/mod.rs:get_u64_unchecked 396"]}
{"id": "C104", "title": "Unchecked quantile and sorted access beyond the range", "statement": "In a debug build, unchecked quantile panics if the range is empty, inverted or not inside the matrix. For a good range and a quantile at or beyond its size it returns the number whose bits are all ones. Sorted access beyond the length does the same, and panics on an empty matrix. So the documented outcome of sorted access, a panic or an empty bit vector, does not hold.", "quantifier": "all sequences, all bit widths, all ranges and all quantiles", "why_tests_cant": "unchecked functions are only tested with valid arguments", "anchors": ["src/wavelet/mod.rs:quantile_unchecked 1040", "src/wavelet/mod.rs:get_sorted_unchecked 1125", "src/wavelet/mod.rs:quantile_u64_unchecked 1172", "src/wavelet/mod.rs:get_sorted_u64_unchecked 1259"]}
{"id": "C105", "title": "In a release build the tree searches are right for every i64 excess", "statement": "In a build without overflow checks, fwd_search answers as C41 says, on the empty expression too, and bwd_search answers as C42 says (None for an index beyond the end), for every relative excess that fits an i64, although the sums on the way can wrap.", "quantifier": "all parenthesis expressions below 2^57 bits (balanced or not), both lookup tables, all block sizes (backward: divisors and multiples of the lookup width), all indices, all i64 excesses", "why_tests_cant": "a wrapped excess could meet the range of a min-max node or a lookup entry at any level", "anchors": ["src/trees/bp/mod.rs:fwd_search 163-246", "src/trees/bp/mod.rs:bwd_search 256-333", "src/trees/mmt.rs:fwd_search 216-337", "src/trees/mmt.rs:bwd_search 238-435", "src/trees/bp/lookup_query.rs:process_block_fwd 200-235", "src/trees/bp/lookup.rs:process_block_fwd 147-194"]}
{"id": "C106", "title": "Level queries in a release build", "statement": "In a build without overflow checks, level_leftmost and level_rightmost are right for all levels below 2^63 and level_ancestor for all levels up to 2^63, except level_rightmost(0) on a single node. Larger levels become negative: level_leftmost is None, but the last position for level 2^64 - 1; level_rightmost is None; level_ancestor(i, l) is the previous position whose excess is larger by 2^64 - l. Without nodes, level_rightmost is None instead of a panic; on the empty expression level_leftmost(0) is still Some(0) and all else is None.", "quantifier": "all ordered trees below 2^57 bits, all nodes, all u64 levels, both lookup tables", "why_tests_cant": "levels at the ends of the integer range", "anchors": ["src/trees/bp/mod.rs:level_ancestor 688", "src/trees/bp/mod.rs:level_leftmost 706", "src/trees/bp/mod.rs:level_rightmost 717"]}
{"id": "C107", "title": "FastRmq with inverted ranges: exact outcome", "statement": "For j < i < len, FastRmq::range_min(i, j) does the following. Call hit(x) the last minimum from x to the end of its block of 128 elements; in a shorter last block of n elements, hit(x) is 128 - n more than the last minimum of the last 128 - x % 128 elements, or x itself if there are not as many. If i and j are in one block, the result is hit(j) + 1 if hit(j) < i and a panic otherwise. If they are in different blocks, it is hit(i) or the first minimum from the start of j's block to j, whichever element is smaller, hit(i) on ties; it panics if hit(i) is out of bounds. With C83 this gives the outcome of range_min_with_range for all bounds on non-empty data; the outcome is unique.", "quantifier": "all sequences the constructor accepts, all indices j < i < len, all range bounds", "why_tests_cant": "the outcome depends on the data and on the position of the block ends; tests only see single cases", "anchors": ["src/rmq/fast_rmq/mod.rs:range_min 199", "src/rmq/fast_rmq/mod.rs:range_min_with_range 171"]}
{"id": "C108", "title": "Zero-width appends: exact effect on later calls", "statement": "Appending zero bits of the words ws to a bit vector whose length is a multiple of 64 changes nothing that can be read, but later: whole words and groups of up to 64 bits come out late, the bits of ws first; a single appended bit comes out right but count_ones misses it; appending a vector panics if it has fewer limbs than ws, otherwise its bits come out behind those of ws; drop_last, even of 0 bits, gives what it gives without the zero-width appends. RsVec::from_bit_vec panics if there are fewer ones than zeros in ws; otherwise rank at the end counts the zeros of ws, select1 misses as many ones at the end, select0 returns positions beyond the length, and everything else is right. Packing a sequence with zero bits per element gives such a vector.", "quantifier": "all bit vectors of a length divisible by 64, all lists of 64-bit words, all later arguments", "why_tests_cant": "the effect appears only in later calls and depends on words that are never visible", "anchors": ["src/bit_vec/mod.rs:append_bits 911-926", "src/bit_vec/mod.rs:append_word 878-889", "src/bit_vec/mod.rs:append 725-735", "src/bit_vec/mod.rs:extend_bitvec 967-981", "src/bit_vec/mod.rs:drop_last 755-771", "src/bit_vec/mod.rs:count_ones 1266-1277", "src/bit_vec/mod.rs:pack_bits 328-371", "src/bit_vec/fast_rs_vec/mod.rs:from_bit_vec 113-230"]}
{"id": "C109", "title": "u64 queries of wavelet matrices with wide elements; range statistics out of bounds", "statement": "If elements have more than 64 bits, get_u64_unchecked returns the element modulo 2^64, every other unchecked u64 query panics and every checked u64 query returns None. range_min/max/median_unchecked and their u64 variants panic exactly on ranges that are empty, inverted, or end beyond the sequence.", "quantifier": "all matrices built by any constructor, all element widths, all arguments", "why_tests_cant": "tests use words of at most 64 bits and valid ranges", "anchors": ["src/wavelet/mod.rs:get_u64_unchecked 396-403", "src/wavelet/mod.rs:rank_range_u64_unchecked 486-498", "src/wavelet/mod.rs:select_offset_u64_unchecked 858-880", "src/wavelet/mod.rs:partial_quantile_search_u64_unchecked 1183-1212", "src/wavelet/mod.rs:range_min_unchecked 1301-1530"]}
{"id": "C110", "title": "Unchecked access to stored bits", "statement": "All unchecked accessors of BitVec and RsVec work on the same list of stored bits: the bits of the vector followed by fewer than 64 others. get_unchecked, is_bit_set_unchecked, get_bits_unchecked and unpack_element_unchecked return the addressed stored bits if the limb of the position exists, the whole slice is stored and the width is at most 64, and panic otherwise; set_unchecked and flip_bit_unchecked change exactly the addressed stored bit or panic. append_bits_unchecked ORs the word with the stored bits behind the length. split_at_unchecked behind the end panics. An RsVec has the stored bits of the vector it was built from. A masked vector reads the combination of the stored bits, except that 64 bits at a position that is not a multiple of 64 give 0.", "quantifier": "all bit vectors with any stored bits above the length, all positions, widths and values", "why_tests_cant": "documentation leaves the results open; tests do not read behind the end", "anchors": ["src/bit_vec/mod.rs:get_unchecked 1067-1069", "src/bit_vec/mod.rs:set_unchecked 1111-1114", "src/bit_vec/mod.rs:flip_bit_unchecked 1026-1028", "src/bit_vec/mod.rs:get_bits_unchecked 1197-1206", "src/bit_vec/mod.rs:unpack_element_unchecked 1256-1258", "src/bit_vec/mod.rs:append_bits_unchecked 949-961", "src/bit_vec/mod.rs:split_at_unchecked", "src/bit_vec/mask.rs:get_bits_unchecked 142-161", "src/bit_vec/fast_rs_vec/mod.rs:get_bits_unchecked 378-389"]}
{"id": "C111", "title": "Range minimum queries with indices out of bounds", "statement": "What range_min does when an index is beyond the end. BinaryRmq: every index returned is below the length and at least i; the call panics if j < i or i is out of bounds. FastRmq with i <= j and j out of bounds: the call returns j itself, an index out of bounds, exactly if i < j and both lie in the last, partly filled block of 128; it panics in all other cases. FastRmq with j < i, whatever the bounds: panics if the block of i does not exist, and otherwise behaves as on inverted ranges within bounds. With C83 this fixes the outcome of FastRmq::range_min for all i and j.", "quantifier": "all arrays both constructors accept, all i and j", "why_tests_cant": "The documentation only promises a panic or an incorrect result; which of the two depends on the position of both indices relative to the short last block, whose block vectors are never filled up, and there are unboundedly many calls.", "anchors": ["src/rmq/fast_rmq/mod.rs:193-271", "src/rmq/binary_rmq/mod.rs:140-172"]}
{"id": "C112", "title": "Release builds: FastRmq", "statement": "FastRmq::range_min gives the same outcome in builds with and without overflow checks for all indices, inverted and out of bounds included: nothing wraps before an index is out of bounds. range_min_with_range on non-empty data differs only for bounds that overflow, Excluded(2^64-1) as start and Excluded(0) as end: the debug build panics, the release build takes 0 for the start and the last index for the end. All other bounds, inverted ones included, have the outcome of C83 or C107 in both builds.", "quantifier": "all arrays the constructor accepts, all indices and all range bounds", "why_tests_cant": "Debug and release builds of the same call cannot be compared by one test run, and a wrapping difference shows only for particular block contents and index combinations among 2^128 pairs.", "anchors": ["src/rmq/fast_rmq/mod.rs:171-271"]}
{"id": "C113", "title": "How many steps rank and range minimum queries take", "statement": "rank0 and rank1 scan at most 7 whole words besides the word of the position, and FastRmq::range_min scans at most 128 elements, whatever the length of the data and whatever the arguments. Both bounds are attained.", "quantifier": "all bit vectors and positions, all data sequences and index pairs", "why_tests_cant": "A test measures time on a few inputs; a scan that is longer only for some positions in a block, or only for adversarial data, stays in the noise.", "anchors": ["src/bit_vec/fast_rs_vec/mod.rs:260-309", "src/rmq/fast_rmq/mod.rs:188-270"]}
{"id": "C114", "title": "How many steps select on a wavelet matrix takes", "statement": "select on a wavelet matrix over n elements makes one select query per level, each of which is done after log2_up(n/8192 + 1) halvings and n/8192 + 8 linear steps. Neither a multiple of k nor one of k log n bounds the steps, so the documented O(k) for all operations does not hold for select.", "quantifier": "all wavelet matrices, offsets, ranks and symbols; for the refutation, all constants", "why_tests_cant": "The slow inputs are long runs of equal bits on a level followed by a rare symbol; random tests never contain a select block that spans many super-blocks.", "anchors": ["src/wavelet/mod.rs:38", "src/wavelet/mod.rs:778-914", "src/bit_vec/fast_rs_vec/select.rs:165-186", "src/bit_vec/fast_rs_vec/select.rs:387-409"]}
{"id": "C115", "title": "How many rank queries wavelet matrix operations make", "statement": "On a wavelet matrix with k levels, reading an element makes at most k rank queries on the levels; counting a symbol in a range and every order statistic (quantile, minimum, maximum, median, sorted access) make at most 2k; predecessor and successor make at most max(2k + 2, 4k - 2), including the search from the last branching level. No bound depends on the number of elements, and each is attained.", "quantifier": "all wavelet matrices, ranges, ranks and symbols", "why_tests_cant": "The longest predecessor search needs a branch at the first level and a dead end at the last; a test that measures time does not see how often a path is walked.", "anchors": ["src/wavelet/mod.rs:38", "src/wavelet/mod.rs:301-311", "src/wavelet/mod.rs:422-434", "src/wavelet/mod.rs:1052-1083", "src/wavelet/mod.rs:1568-1656", "src/wavelet/mod.rs:1752-1843"]}
{"id": "C116", "title": "Steps taken by the select iterators", "statement": "Yielding the next set bit from a fresh forward select iterator takes no linear search steps if the bit lies in the same 8192-bit super-block as the previous one and that super-block is not the last one. Otherwise the search restarts at the select sample and takes exactly one step per super-block from there, as many as a call of select for that rank and never more. For unset bits the same holds in the last select block, and elsewhere the halving leaves at most 8 linear steps. So no constant times the logarithm of the length bounds a call, even if the bit is in the same 512-bit block as the one before it.", "quantifier": "every bit vector, every rank below the count, every step budget", "why_tests_cant": "The number of loop iterations is not observable through the interface, and the slow case needs vectors with many empty super-blocks.", "anchors": ["src/bit_vec/fast_rs_vec/iter.rs:7-70", "src/bit_vec/fast_rs_vec/iter.rs:109-155", "src/bit_vec/fast_rs_vec/iter.rs:204-264"]}
{"id": "C117", "title": "Sparse vectors with positions beyond their length or duplicates", "statement": "SparseRSVec::new accepts exactly the strictly increasing position lists (debug build), whatever the length: positions at or beyond the length are not rejected. They are counted by rank1, returned by select1 and yielded by iter1, while get, is_set and rank0 behave as if they were absent; so rank1 beyond the end is not always the number of one-bits in the vector. In a release build ascending lists with duplicates are accepted as well: rank1 and select1 count every copy, get reports membership, and rank0 is the difference modulo 2^64.", "quantifier": "all position lists of 64-bit numbers, all lengths, all queries, all low-part widths", "why_tests_cant": "The documentation names only order and duplicates, so tests use positions below the length.", "anchors": ["src/bit_vec/sparse.rs:65-76", "src/bit_vec/sparse.rs:159-222"]}
{"id": "C118", "title": "Total cost of iterating over the one-bits", "statement": "Iterating over all one-bits of a vector with iter1 takes at most as many linear search steps in total as the position of the last one-bit, hence at most the length of the vector, although a single call can take many. The bound cannot be replaced by the number of super-blocks: with m super-blocks of 8192 bits (m at most 8192), each with a single one-bit at its start, any run takes at least m (m - 1) / 2 steps.", "quantifier": "every bit vector; every sequence of per-call budgets; every number of super-blocks up to 8192 in the lower bound", "why_tests_cant": "The number of loop iterations is not observable through the interface.", "anchors": ["src/bit_vec/fast_rs_vec/iter.rs:204-264", "src/bit_vec/fast_rs_vec/select.rs:387-409"]}
{"id": "C119", "title": "Cost of the Elias-Fano iterators", "statement": "Iterating over a whole Elias-Fano vector takes at most as many linear search steps in total as the position of the last one-bit in the upper vector, hence at most three per element with the exact low-part width. The method max of a fresh iterator takes exactly as many linear search steps as there are super-blocks from the select sample of the last element to its bit. The documented constant time of max is false: for every t from 1 to 61 there is a sorted vector of 3 * 2^t elements on which max needs at least 2^t / 2048 steps.", "quantifier": "all non-empty sorted lists of 64-bit numbers, all low-part widths below 64, all budgets; every t from 1 to 61 in the lower bound", "why_tests_cant": "The number of loop iterations is not observable through the interface.", "anchors": ["src/util/elias_fano_iter.rs:69-80", "src/util/elias_fano_iter.rs:98-138"]}
{"id": "C120", "title": "Cost of iterating over the one-bits from the back", "statement": "A call of next_back on iter1 takes no linear search step if the one-bits before and after the one it yields lie in the same super-block (the end of the vector standing for the bit after the last), and otherwise as many as there are super-blocks from the select sample to the bit; so, other than next, it searches again for the first and the last one-bit of each super-block. Iterating over all one-bits from the back takes at most as many steps in total as the position of the last one-bit.", "quantifier": "every bit vector, every rank, every budget", "why_tests_cant": "The number of loop iterations is not observable through the interface.", "anchors": ["src/bit_vec/fast_rs_vec/iter.rs:268-324"]}
{"id": "C121", "title": "How many steps the wavelet matrix constructors take", "statement": "Counting every iteration of every loop written in the constructors and in the conversion of the levels to RsVec, from_slice and from_bit_vec on n elements of k bits take exactly (2k-1)n + k*ceil(n/64) + 2k steps whenever they succeed, whatever the elements are: within the documented O(kn log n) and even within 5kn. from_slice_pc and from_bit_vec_pc take exactly kn + (2^(k+1)-4) + k*ceil(n/64) + k steps. The documented O(kn) of the prefix counting constructors therefore leaves out the term 2^(k+1): for every k from 1 to 63 a single element already takes at least 2^(k+1)-1 steps, while sorting builds the same matrix in 5k steps.", "quantifier": "all sequences and bit vectors, all numbers of bits, all step budgets", "why_tests_cant": "Running time of tests only samples small alphabets; the exact count is needed for all n and k.", "anchors": ["src/wavelet/mod.rs:85-132", "src/wavelet/mod.rs:146-152", "src/wavelet/mod.rs:164-172", "src/wavelet/mod.rs:184-228", "src/wavelet/mod.rs:249-267", "src/wavelet/mod.rs:285-296"]}
{"id": "C122", "title": "How many steps the range minimum constructors take", "statement": "Counting every loop iteration, BinaryRmq::from_vec on n elements takes exactly n + ceil(log2 n)(n+1) steps whenever it succeeds, and FastRmq::from_vec exactly 2n + ceil(log2 b)(b+1) steps with b = ceil(n/128) blocks, whatever the elements are. Both are within the documented O(n log n).", "quantifier": "all data vectors, all step budgets", "why_tests_cant": "The bound must hold for all lengths and contents, not for the benchmarked ones.", "anchors": ["src/rmq/binary_rmq/mod.rs:48-107", "src/rmq/fast_rmq/mod.rs:100-154"]}
{"id": "C123", "title": "Release builds: wavelet constructors and pdep for signed types", "statement": "In a release build, where arithmetic wraps and shift distances are taken modulo 64, the wavelet constructors return the same matrices and panic for the same arguments as in a debug build: with 64 bits 1 << 64 is 1, so the histogram of prefix counting has one entry and an index check fails; with no bits the vector of levels is empty and its index check fails. The software pdep returns the documented value for signed types and negative masks as well.", "quantifier": "all sequences, bit vectors and numbers of bits; all widths above 0, all values and masks", "why_tests_cant": "Tests run in one build mode, and the overflow checks of the other hide or create panics.", "anchors": ["src/wavelet/mod.rs:164-172", "src/wavelet/mod.rs:184-228", "src/wavelet/mod.rs:249-267", "src/wavelet/mod.rs:285-296", "src/util/pdep.rs:113-131"]}
{"id": "C124", "title": "unpack_element returns None for every element out of bounds", "statement": "unpack_element(i, n) is documented to be safe with any index and any size n <= 64 and to return None if the element is out of bounds. It returns the n bits at i * n if (i + 1) * n bits exist and None otherwise, as long as (i + 1) * n does not overflow. A debug build panics on overflow. A release build reads at i * n modulo 2^64, so that for even n the index i + 2^63 returns the element with index i although it is out of bounds.", "quantifier": "all bit vectors, all indices and widths below 2^64", "why_tests_cant": "Tests use indices close to the length; the overflow needs an index above 2^57.", "anchors": ["src/bit_vec/mod.rs:1209-1236", "src/bit_vec/mod.rs:1256-1258"]}
{"id": "C125", "title": "Release builds: get_unchecked of an Elias-Fano vector", "statement": "In a release build get_unchecked returns the element for every index below the length, and the same value as a debug build whenever that returns one. For an index i behind the end of a non-empty vector of length n with first element z and top part t of the last element it returns ((1 + n + t - i) * 2^w + z) modulo 2^64 if the low bits of index i lie in the storage of the low vector, and panics otherwise. The documented panic for an index behind the end never happens if there are no low bits (w = 0).", "quantifier": "all sorted sequences of 64-bit values, all widths below 64 and all indices i with i * w below 2^64", "why_tests_cant": "Tests of the documented panic run in a debug build, where an overflow check panics.", "anchors": ["src/elias_fano/mod.rs:175-190"]}
{"id": "C126", "title": "How many steps building rank/select, Elias-Fano and sparse vectors takes", "statement": "RsVec::from_bit_vec takes exactly one loop iteration for each 64 bits. EliasFanoVec::from_slice of n elements with last minus first element u and width w takes n - 1 iterations for the sortedness check of a debug build, n for the elements, and one for each 64 of the 2 + n + u / 2^w upper bits; with the width that the constructor chooses this is at most 3n, whatever the elements are. SparseRSVec::new adds 2(n - 1) iterations, and from_bitvec one for each bit and one more.", "quantifier": "all bit vectors, all inputs the constructors accept, all widths; the linear bound for all sorted 64-bit sequences", "why_tests_cant": "A test cannot measure the worst case over all inputs; a cost that depends on the universe would show only on special data.", "anchors": ["src/bit_vec/fast_rs_vec/mod.rs:113-230", "src/elias_fano/mod.rs:81-134", "src/bit_vec/sparse.rs:65-95"]}
{"id": "C127", "title": "How many steps building a tree takes", "statement": "BpTree::from_bit_vector with n > 0 parentheses and block size B takes exactly n loop iterations for the scan, 2^h + h - 1 for the h levels of the min-max tree over ceil(n/B) blocks (h is 1 or the rounded-up logarithm of the number of blocks), and one for each 64 bits of the rank/select vector. The min-max tree accounts for at most 3 iterations for each block.", "quantifier": "all bit vectors and block sizes", "why_tests_cant": "A test cannot measure the worst case over all inputs and block sizes.", "anchors": ["src/trees/mmt.rs:47-120", "src/trees/bp/mod.rs:149-153"]}
{"id": "C128", "title": "Unchecked wavelet matrix queries in release builds", "statement": "In a release build the unchecked queries of a wavelet matrix never panic and return exactly this. Rank: the occurrences between both ends, each cut at the length; for an inverted range 2^64 minus the occurrences between the ends, modulo 2^64. Select: the occurrence numbered (occurrences before the offset + rank) modulo 2^64 among all occurrences, or the length. Quantile and get_sorted: the element of that number in the cut range, or all ones if there is none; an inverted range gives the smallest element m between its ends, except for the c highest numbers below 2^64, where c counts the elements that lack the highest bit m lacks: these give the smallest of the other elements, or all ones if there is none. range_max gives all ones if the range ends beyond the last element; range_median takes the middle of the range as given, so it can miss the median of the elements present.", "quantifier": "for every wavelet matrix built by any constructor (length below 2^64, for select and the extremes below 2^63), every pair of ends, offset, rank and number below 2^64, every symbol of the right width (every u64 for the u64 versions)", "why_tests_cant": "Tests run in debug builds, where these arguments panic, and never pass ranges out of bounds to unchecked functions.", "anchors": ["src/wavelet/mod.rs:422-434", "src/wavelet/mod.rs:778-800", "src/wavelet/mod.rs:1040-1083", "src/wavelet/mod.rs:1382-1385", "src/wavelet/mod.rs:1476-1479"]}
{"id": "C129", "title": "Release builds: Elias-Fano searches", "statement": "In a release build get, delta, rank, predecessor and successor of an Elias-Fano vector return the right answers for all arguments, and predecessor_unchecked and successor_unchecked return the predecessor or successor if it exists. If it does not exist: predecessor_unchecked(q) of a query below the first element z returns the last element, although it is larger than the query, if (q - z mod 2^64) / 2^w is the top part t of the last element or (unless the length m of the upper vector is a multiple of 64) t + 1; otherwise it panics if m + 1 is 0 or 1 modulo 64, and else returns what get_unchecked returns for the index m - 1 - (q - z mod 2^64) / 2^w modulo 2^64. successor_unchecked(q) of a query above the last element returns what get_unchecked returns for the index n, or n + 1 + t - (q - z) / 2^w modulo 2^64 if that block lies behind the last one; it panics if the block number is 2^64 - 1. On an empty vector both panic.", "quantifier": "all sorted sequences of 64-bit values, all widths below 64 for which the upper vector has at most 2^64 - 64 bits and the lower at most 2^64, all queries", "why_tests_cant": "Tests run in a debug build, where the unchecked searches panic for most queries without an answer; in a release build they return numbers that depend on the length of the upper vector modulo 64.", "anchors": ["src/elias_fano/mod.rs:150-157", "src/elias_fano/mod.rs:192-516", "src/elias_fano/mod.rs:536-602"]}
{"id": "C130", "title": "Release builds: get_unchecked of an Elias-Fano vector for every index", "statement": "In a release build get_unchecked(i) on a non-empty Elias-Fano vector returns the element if i is below the length n. For any other i let p = i * w modulo 2^64, S the number whose binary digits are the low parts of all elements one after the other, z the first element and t the top part of the last one: the result is ((1 + n + t - i) * 2^w + (S / 2^p mod 2^w) + z) modulo 2^64 if p + w is at most n * w rounded up to a multiple of 64, and a panic otherwise. So indices whose product with the width wraps read low bits of elements again instead of panicking.", "quantifier": "all non-empty sorted sequences of 64-bit values, all widths below 64 for which the upper vector has at most 2^64 - 64 bits and the lower at most 2^64, all 64-bit indices", "why_tests_cant": "It concerns indices close to 2^64 in release builds; tests would have to guess the few indices whose product wraps into the vector.", "anchors": ["src/elias_fano/mod.rs:175-190", "src/bit_vec/mod.rs:1197-1206"]}
{"id": "C131", "title": "Release builds: Elias-Fano vectors of unsorted data", "statement": "In a release build EliasFanoVec::from_slice does not check that the data is sorted. Let the high part of an element be its wrapping distance from the first element divided by 2^lower_width, and its place the high part plus its index plus one. from_slice panics exactly if the place of some element lies behind the allocated words of the upper vector, which is as long as the last element demands. Otherwise get returns every element as given if and only if the high parts never decrease; so data that is out of order only inside buckets is accepted and read back, whatever the searches make of it. For sorted data the result is that of a debug build, which panics for all other data.", "quantifier": "All non-empty lists of u64 values and every lower width below 63 (63 for up to two elements, the only case in which from_slice chooses it), as long as the lengths of the two parts stay below 2^64 with a margin of one word.", "why_tests_cant": "Unsorted input is forbidden, so tests never pass it; in a debug build it panics. Whether the damage shows depends on bits toggled twice, on places in the padding of the last word, and on wrapped distances.", "anchors": ["src/elias_fano/mod.rs:81-134", "src/elias_fano/mod.rs:151-190"]}
{"id": "C132", "title": "The min-max tree summarises its blocks and finds the nearest block with an excess", "statement": "MinMaxTree::excess_tree stores its nodes level by level. The node at each place holds the total excess of the parentheses below it and the exact minimum and maximum of the running excess behind its start, zeros if there is nothing below it; only places of the last level without parentheses are left out. fwd_search from a block returns the nearest later block behind one of whose parentheses the sought excess is reached, with the excess relative to the start of that block, and None if there is none; bwd_search returns the nearest earlier block that has the excess in front of one of its parentheses, relative to the end of that block.", "quantifier": "All non-empty bit vectors, balanced or not, all positive block sizes, all blocks of the vector and all sought excesses that differ from every running excess by less than 2^63 and from the excess where the search starts.", "why_tests_cant": "The tests of the min-max tree check single trees of a few leaves; the tree is otherwise tested only through tree navigation on short expressions, which fit into one block.", "anchors": ["src/trees/mmt.rs:47-120", "src/trees/mmt.rs:134-204", "src/trees/mmt.rs:217-444"]}
{"id": "C133", "title": "Parentheses and nodes of expressions that need not be balanced", "statement": "For a tree built from any sequence of parentheses, balanced or not, close and open return the partner of a parenthesis exactly if it has one, enclose and parent return the innermost opening parenthesis around a position exactly if there is one, and the node queries of an opening parenthesis (subtree_size, is_ancestor, first_child, last_child, next_sibling, previous_sibling, is_leaf, depth, node_index, level_next, level_prev, level_ancestor, children) return what the matched piece of the expression starting there, or the lack of one, dictates. dfs_iter yields every opening parenthesis, and dfs_post_iter yields the partners of the closing parentheses if all have one and panics otherwise.", "quantifier": "all sequences of fewer than 2^63-2 parentheses, all positions of (opening) parentheses, both lookup tables; all block sizes for the forward queries, block sizes aligned with the lookup table for the backward queries", "why_tests_cant": "Tests only use balanced expressions or one or two unbalanced ones; the pieces of an unbalanced expression can lie anywhere relative to blocks and the min-max tree.", "anchors": ["src/trees/bp/mod.rs:335-376", "src/trees/bp/mod.rs:396-423", "src/trees/bp/mod.rs:557-664", "src/trees/bp/mod.rs:666-733"]}
{"id": "C134", "title": "excess and is_empty against their documentation", "statement": "BpTree::excess returns the number of opening minus the number of closing parentheses up to and including the position. The documentation promises the total excess beyond the end; a debug build panics there instead, and a release build keeps the promise except for the largest usize, where index + 1 wraps to 0 and the result is 0. is_empty is documented as true if the tree has no nodes; it is true exactly if there are no parentheses at all, so an expression of closing parentheses only has size 0 and is not empty.", "quantifier": "all sequences of parentheses (fewer than 2^57 in a release build), all block sizes, all usize positions", "why_tests_cant": "The out-of-range promise is never exercised, and the wrap of index + 1 needs one particular usize and a release build.", "anchors": ["src/trees/bp/mod.rs:378-385", "src/trees/bp/mod.rs:658-664", "src/trees/mod.rs:65-71"]}
{"id": "C135", "title": "Node queries of trees in release builds, for every usize", "statement": "In a release build, where the checks of node handles are compiled out and arithmetic wraps, the node queries called with the position of an opening parenthesis answer as in a debug build. Called with the position of a closing parenthesis the queries, level queries and subtree_iter do not panic and return results fixed by the next unmatched closing parenthesis and the trees ending there (children and the post-order iterator are described for nodes only). Called with a position beyond the end they do not panic and return None, empty or total results, except that previous_sibling of the position just behind the expression is its last root and that the largest usize wraps to position 0 in first_child, is_leaf and depth.", "quantifier": "all sequences of fewer than 2^57 parentheses, balanced or not, all usize node handles, both lookup tables, block sizes aligned with the lookup table", "why_tests_cant": "Tests run in debug builds with valid handles; invalid handles only reach this code in release builds.", "anchors": ["src/trees/bp/mod.rs:335-376", "src/trees/bp/mod.rs:430-506", "src/trees/bp/mod.rs:557-733", "src/trees/bp/mod.rs:772-798"]}
{"id": "C136", "title": "Subtree and children iterators of expressions that need not be balanced", "statement": "In an arbitrary parenthesis expression, if the opening parenthesis at a node is closed, the text between the two parentheses describes a tree s, and the iterators over the node's subtree in pre-order, over its subtree in post-order, over its children and over its children reversed yield exactly the nodes of s in that order, shifted to the node, whatever surrounds the piece. If the opening parenthesis is never closed, the pre-order subtree iterator and the reversed children iterator are empty, and the post-order subtree iterator yields nothing if no closing parenthesis follows, and otherwise exactly one node: the leaf in front of the next closing parenthesis.", "quantifier": "every parenthesis expression, balanced or not, every block size, every node, both lookup tables (post-order and reversed children: lookup chunks aligned with blocks)", "why_tests_cant": "The tests iterate over subtrees of a few small balanced trees only; on unbalanced input the iterators derive their length from a partner that may be missing, and no test looks at that case or at a subtree embedded in unbalanced text.", "anchors": ["src/trees/bp/mod.rs:430-506", "src/trees/bp/mod.rs:335-357", "src/trees/bp/mod.rs:593-625"]}
{"id": "C137", "title": "Release builds: unchecked multi-bit reads of every length", "statement": "In a release build get_bits_unchecked of a bit vector, of an RsVec and of a masked vector, and unpack_element_unchecked, behave as follows for every usize position and length. Up to 64 bits they answer as in a debug build. For longer reads, which panic in a debug build and return unspecified data according to the documentation, the limb at the position and the next one must exist, otherwise the call panics. The result is then the bits at the position, or the bitwise or of the two limbs if the position is a multiple of 64, cut to min(64, len mod 2^32) bits (len mod 64 bits for a masked vector). If position mod 64 + len overflows, only the rest of the limb is read. get_bits of a masked vector answers as in a debug build unless the end of the read overflows; then it panics or returns None depending on the wrapped end.", "quantifier": "all bit vectors with any surplus bits, all masks that work bit by bit, all usize positions and lengths", "why_tests_cant": "A test can sample a few lengths in one build profile; the tests never read more than 64 bits, and the debug assertion hides the behaviour from every test that runs in a debug build.", "anchors": ["src/bit_vec/mod.rs:1197-1206", "src/bit_vec/mod.rs:1256-1258", "src/bit_vec/fast_rs_vec/mod.rs:380-389", "src/bit_vec/mask.rs:111-161"]}
{"id": "C138", "title": "Tree answers do not depend on block size, lookup table or unused bits", "statement": "Two BpTrees over the same parentheses give the same answer to every forward query (close, next sibling, first child, leaf, depth, excess, numbering, subtree size, ancestor test, next on level, leftmost of a level, forward search, pre-order, subtree and children iterators) for every index, whatever their block sizes and lookup tables (8 or 16 bit) and whatever the unused bits of the last limb; where one panics, so does the other. The same holds for every backward query (open, enclose, parent, previous sibling, last child, previous on level, ancestor on level, rightmost of a level, backward search, post-order iterators, reversed children) if both block sizes fit the lookup tables. Without the fit it fails.", "quantifier": "every parenthesis expression, balanced or not, every index, every excess and level that does not overflow i64, every pair of block sizes and lookup tables", "why_tests_cant": "Tests run with one lookup table per compilation and with a few block sizes on small trees; agreement of two configurations on all expressions and indices cannot be tested.", "anchors": ["src/trees/bp/mod.rs:149-376", "src/trees/bp/mod.rs:396-506", "src/trees/bp/mod.rs:549-798", "src/trees/bp/lookup.rs", "src/trees/bp/lookup_query.rs"]}
{"id": "C139", "title": "Wavelet matrices agree with Elias-Fano vectors and range minimum structures", "statement": "On any non-empty range of a wavelet matrix built from u64 values of k bits, quantile_u64 gives the elements of an EliasFanoVec that holds the sorted range, range_min_u64, range_max_u64 and range_median_u64 give its first, last and middle element, predecessor_u64 and successor_u64 give its predecessor and successor, and rank_range_u64 is the difference of its ranks at q and q+1. The minimum of the range is the element at the index found by BinaryRmq and at the index found by FastRmq.", "quantifier": "all sequences of values below 2^k with 1 <= k <= 64, all ranges, all low-bit widths below 64, all ranks and queries below 2^k", "why_tests_cant": "the structures are tested separately, each against its own naive oracle", "anchors": ["src/wavelet/mod.rs:520-538", "src/wavelet/mod.rs:1172-1250", "src/wavelet/mod.rs:1341-1380", "src/wavelet/mod.rs:1451-1470", "src/wavelet/mod.rs:1553-1570", "src/wavelet/mod.rs:1726-1913", "src/elias_fano/mod.rs:81-190", "src/elias_fano/mod.rs:200-600", "src/rmq/binary_rmq/mod.rs:range_min 149-160", "src/rmq/fast_rmq/mod.rs:range_min 199-280"]}
{"id": "C140", "title": "Sparse vectors in release builds", "statement": "In a release build SparseRSVec::new accepts ascending positions with duplicates; is_set, get, rank1 and select1 then follow the list of positions and rank0 wraps below zero where duplicates outnumber positions. is_set_unchecked answers correctly at and behind the first position; before it (in bounds, contrary to the documentation) it panics, returns false, or compares garbage low bits with those of the query: with low parts of width 0 it reports every position before the first as set, unless it panics. For positions in any order select1 returns them exactly if their high parts ascend.", "quantifier": "all position lists that fit the address space, all lengths, all low-part widths below 64, all queries below 2^64", "why_tests_cant": "tests run with debug assertions and overflow checks, where the same calls panic", "anchors": ["src/bit_vec/sparse.rs:65-76", "src/bit_vec/sparse.rs:151-216", "src/elias_fano/mod.rs:81-134", "src/elias_fano/mod.rs:425-455"]}
{"id": "C141", "title": "Elias-Fano iterators in release builds", "statement": "In a release build the iterators of an EliasFanoVec follow the contract of a debug build (C53) for every sequence of next, next_back, nth, nth_back and len, except where the elements already skipped or taken at the front and the argument of nth do not add up to a usize: if the sum is exactly 2^64, nth returns None and changes nothing; if it is larger, the index wraps and nth panics because the iterator over the positions is exhausted. So unlike the iterators of bit vectors and wavelet matrices (C80) they never return an element twice. Calls that stay inside follow the standard contract; min, last and max are those of a debug build.", "quantifier": "all non-decreasing sequences of u64 that fit the address space, all low-bit widths below 64, all call sequences with all arguments below 2^64", "why_tests_cant": "a skip of almost 2^64 elements after some were taken overflows only without overflow checks; tests run with them", "anchors": ["src/util/elias_fano_iter.rs:10-29", "src/util/elias_fano_iter.rs:37-58", "src/util/elias_fano_iter.rs:69-80", "src/util/elias_fano_iter.rs:98-138", "src/util/elias_fano_iter.rs:151-172"]}
{"id": "C142", "title": "Release builds: reading and iterating Elias-Fano vectors of unsorted data", "statement": "In a release build EliasFanoVec::from_slice may accept unsorted data (C131). Every element leaves a mark at its high part plus its index plus one, and marks at the same place cancel in pairs. get(i) then combines the place of the i-th remaining mark (or the length of the upper vector, if there are not enough) with the low part of element i, for every i. The iterators do the same from both ends until the marks run out: a loop over next yields exactly the values of get, but ends after as many elements as there are marks, and len still counts the missing ones; next_back pairs the last marks with the last low parts. nth panics if it skips more elements than there are marks but not more than len. The exact results of next, next_back, nth and len are given for every sequence of calls.", "quantifier": "all non-empty sequences of u64 that from_slice accepts in a release build and that fit the address space, all low-bit widths below 64, all indices, all sequences of next, next_back, nth and len (nth_back, which depends on C81, excluded)", "why_tests_cant": "a debug build refuses unsorted data by a debug assertion, so tests never iterate over such a vector", "anchors": ["src/elias_fano/mod.rs:81-134", "src/elias_fano/mod.rs:166-190", "src/util/elias_fano_iter.rs:10-29", "src/util/elias_fano_iter.rs:69-80", "src/util/elias_fano_iter.rs:115-118", "src/util/elias_fano_iter.rs:142-167"]}
{"id": "C143", "title": "Laws between the tree functions, for any sequence of parentheses", "statement": "For a tree built from any sequence of parentheses, balanced or not: close and open undo each other, and so do next_sibling and previous_sibling, and level_next and level_prev. The parent of a first or last child is the node itself, siblings have the same parent, the next sibling is also the next node of the level, and nodes of one level have the same depth. children yields exactly the nodes whose parent is the node. is_ancestor answers Some(true) exactly if the first node is closed and repeated calls of parent lead from the second node to it, Some(false) exactly if it is closed and they do not, and level_ancestor(k) is k calls of parent. A child is one level deeper than its parent unless the parent lies behind a surplus of closing parentheses; then the depth of both is reported as 0.", "quantifier": "all sequences of fewer than 2^63-2 parentheses, all pairs of nodes, both lookup tables, block sizes aligned with the lookup table", "why_tests_cant": "The laws relate two or more calls on pairs of nodes whose distance is unbounded; tests check them on one or two balanced trees, and a pair of searches that are wrong in the same way also passes tests that compare one with the other.", "anchors": ["src/trees/bp/mod.rs:335-376", "src/trees/bp/mod.rs:479-500", "src/trees/bp/mod.rs:557-664", "src/trees/bp/mod.rs:666-733"]}
{"id": "C144", "title": "Laws between the queries of Elias-Fano vectors and of wavelet matrices", "statement": "Elias-Fano vectors: successor(q) is the element at index rank(q), predecessor(q) is the element before index rank(q+1), every stored element is its own predecessor and successor and is found again at its rank, and an element plus the following delta is the next element. Wavelet matrices (u64 queries): select(r, s) is p exactly if the element at p is s and rank(p, s) is r; ranks of adjacent ranges add up; quantiles do not decrease, occur in the range, and reach every symbol of the range; the predecessor (successor) of a symbol is its own successor (predecessor) and no quantile lies strictly between it and the symbol.", "quantifier": "all nondecreasing u64 sequences, all low-part widths below 64, all u64 queries; all wavelet matrices of at most 64 bits per element and fewer than 2^63 elements, all non-empty ranges, all symbols", "why_tests_cant": "The laws relate several queries on the same unbounded structure for all 2^64 arguments; unit tests compare each query with a list on few inputs.", "anchors": ["src/elias_fano/mod.rs:151-605", "src/wavelet/mod.rs:377-395", "src/wavelet/mod.rs:486-540", "src/wavelet/mod.rs:725-770", "src/wavelet/mod.rs:990-1030", "src/wavelet/mod.rs:1172-1245", "src/wavelet/mod.rs:1726-1760", "src/wavelet/mod.rs:1913-1950"]}
