{
 "claims": [
  {
   "property": "C01",
   "status": "proved",
   "theorems": [
    "C01_append",
    "C00_bits_observable"
   ],
   "note": "All well-formed vectors incl. junk above the length."
  },
  {
   "property": "C02",
   "status": "proved",
   "theorems": [
    "C02_edit_programs"
   ],
   "note": "Programs of any length from any constructor; append_bits/pack widths >= 1 as the property says."
  },
  {
   "property": "C03",
   "status": "proved",
   "theorems": [
    "C03_drop_last",
    "C03_extend",
    "C03_extend_iter",
    "C03_split_at"
   ],
   "note": ""
  },
  {
   "property": "C04",
   "status": "partial",
   "theorems": [
    "C04_get_bits_partial",
    "C04_get_bits_refuted"
   ],
   "note": "Proved for pos+n < 2^64; the no-panic half is false beyond that (overflow), see refuted theorem."
  },
  {
   "property": "C05",
   "status": "proved",
   "theorems": [
    "C05_pack"
   ],
   "note": "Element types of 8, 16, 32, 64 bits; unpack for n <= 64."
  },
  {
   "property": "C06",
   "status": "proved",
   "theorems": [
    "C06_counts"
   ],
   "note": ""
  },
  {
   "property": "C07",
   "status": "partial",
   "theorems": [
    "C07_eq_partial",
    "C07_eq_refuted"
   ],
   "note": "False when the length is a positive multiple of 64 (last limb ignored); proved for all other lengths; exact behaviour is C51."
  },
  {
   "property": "C08",
   "status": "proved",
   "theorems": [
    "C08_hash"
   ],
   "note": "Hash is modelled as the sequence of words given to the hasher."
  },
  {
   "property": "C09",
   "status": "proved",
   "theorems": [
    "C09_apply_mask",
    "C09_masked_view"
   ],
   "note": ""
  },
  {
   "property": "C10",
   "status": "partial",
   "theorems": [
    "C10_masked_get_bits_partial",
    "C10_masked_get_bits_refuted"
   ],
   "note": "False for width 64 at unaligned positions; proved otherwise."
  },
  {
   "property": "C11",
   "status": "partial",
   "theorems": [
    "C11_usable_partial",
    "C11_usable_refuted"
   ],
   "note": "False for append_bits(w,0) at lengths that are multiples of 64; proved otherwise."
  },
  {
   "property": "C12",
   "status": "proved",
   "theorems": [
    "C12_construction",
    "C12_rank"
   ],
   "note": ""
  },
  {
   "property": "C13",
   "status": "proved",
   "theorems": [
    "C13_select"
   ],
   "note": "Scalar block search and software pdep; SIMD block search and hardware pdep not modelled."
  },
  {
   "property": "C14",
   "status": "proved",
   "theorems": [
    "C14_inverse"
   ],
   "note": ""
  },
  {
   "property": "C15",
   "status": "partial",
   "theorems": [
    "C15_get",
    "C15_get_bits_partial",
    "C15_get_bits_refuted",
    "C15_get_bits_overflow_refuted"
   ],
   "note": "get and into_bit_vec in full. get_bits is proved except the empty read at the end of a vector whose length is a multiple of 64 and overflowing pos+len; both panic (refuted theorems)."
  },
  {
   "property": "C16",
   "status": "proved",
   "theorems": [
    "C16_equality"
   ],
   "note": ""
  },
  {
   "property": "C17",
   "status": "proved",
   "theorems": [
    "C17_iter",
    "C17_plain"
   ],
   "note": ""
  },
  {
   "property": "C18",
   "status": "partial",
   "theorems": [
    "C18_nth",
    "C18_last_count",
    "C18_nth_back_partial",
    "C18_nth_back_panics",
    "C18_nth_back_refuted"
   ],
   "note": "nth, last and count in full. nth_back beyond the remaining length panics if nothing was taken from the front (exact condition proved)."
  },
  {
   "property": "C19",
   "status": "proved",
   "theorems": [
    "C19_bit_vec_iter",
    "C19_rs_vec_iter",
    "C19_last",
    "C19_rs_last"
   ],
   "note": "BitVec and RsVec instances; the wavelet matrix instances are the theorems of C40."
  },
  {
   "property": "C20",
   "status": "partial",
   "theorems": [
    "C20_nth_exhausts_partial",
    "C20_nth_exhausts_refuted"
   ],
   "note": "False for n above the remaining length (iterator keeps its elements) and for overflowing n (panic); exact behaviour is C52."
  },
  {
   "property": "C21",
   "status": "proved",
   "theorems": [
    "C21_construction",
    "C21_get"
   ],
   "note": "For every width below 64, hence whatever the floating point logarithms round to."
  },
  {
   "property": "C22",
   "status": "proved",
   "theorems": [
    "C22_predecessor"
   ],
   "note": ""
  },
  {
   "property": "C23",
   "status": "proved",
   "theorems": [
    "C23_successor"
   ],
   "note": ""
  },
  {
   "property": "C24",
   "status": "proved",
   "theorems": [
    "C24_rank"
   ],
   "note": ""
  },
  {
   "property": "C25",
   "status": "proved",
   "theorems": [
    "C25_delta"
   ],
   "note": ""
  },
  {
   "property": "C26",
   "status": "partial",
   "theorems": [
    "C26_iter",
    "C26_last_refuted"
   ],
   "note": "Enumeration from both ends proved in full. last() and max() are wrong unless the vector starts with 0; exact behaviour is C53."
  },
  {
   "property": "C27",
   "status": "proved",
   "theorems": [
    "C27_construction",
    "C27_get",
    "C27_rank",
    "C27_select",
    "C27_iter1",
    "C27_from_bitvec",
    "C27_from_refuted"
   ],
   "note": "C27_from_refuted records that From<BitVec> represents the complement of its argument."
  },
  {
   "property": "C28",
   "status": "proved",
   "theorems": [
    "C28_construction",
    "C28_range_min"
   ],
   "note": ""
  },
  {
   "property": "C29",
   "status": "proved",
   "theorems": [
    "C29_range_min"
   ],
   "note": ""
  },
  {
   "property": "C30",
   "status": "partial",
   "theorems": [
    "C30_meets_partial",
    "C30_no_panic_refuted"
   ],
   "note": "Proved for both structures and every range that selects at least one element. Empty and inverted ranges and Excluded(2^64-1) panic; an empty range inside one block of FastRmq returns an index outside it (refuted theorem). Exact behaviour of BinaryRmq is C56."
  },
  {
   "property": "C31",
   "status": "partial",
   "theorems": [
    "C31_accepts_partial",
    "C31_accepts_refuted"
   ],
   "note": "False from 2^39-127 elements on: the inner BinaryRmq asserts a 32-bit length. Exact limit is C57."
  },
  {
   "property": "C32",
   "status": "proved",
   "theorems": [
    "C32_from_slice",
    "C32_from_bit_vec",
    "C32_get"
   ],
   "note": "C32_get covers all four constructors (inductive wm_built)."
  },
  {
   "property": "C33",
   "status": "proved",
   "theorems": [
    "C33_slice",
    "C33_bit_vec"
   ],
   "note": ""
  },
  {
   "property": "C34",
   "status": "proved",
   "theorems": [
    "C34_rank_range",
    "C34_rank_range_u64",
    "C34_rank_offset",
    "C34_rank_offset_u64",
    "C34_rank",
    "C34_rank_u64",
    "C34_unchecked"
   ],
   "note": ""
  },
  {
   "property": "C35",
   "status": "partial",
   "theorems": [
    "C35_select_offset_partial",
    "C35_select_offset_u64_partial",
    "C35_select_partial",
    "C35_select_u64_partial",
    "C35_refuted"
   ],
   "note": "Proved whenever len + rank < 2^64. For larger ranks range_start + rank may overflow and panic (refuted theorem); exact contract is C59."
  },
  {
   "property": "C36",
   "status": "proved",
   "theorems": [
    "C36_quantile",
    "C36_quantile_u64",
    "C36_min",
    "C36_max",
    "C36_median",
    "C36_sorted",
    "C36_unchecked"
   ],
   "note": "Against the sorted slice, which exists and is unique (sorted_exists, sorted_unique)."
  },
  {
   "property": "C37",
   "status": "proved",
   "theorems": [
    "C37_predecessor",
    "C37_successor",
    "C37_predecessor_u64",
    "C37_successor_u64",
    "C37_none",
    "C37_width"
   ],
   "note": ""
  },
  {
   "property": "C38",
   "status": "partial",
   "theorems": [
    "C38_symbols_partial",
    "C38_refuted"
   ],
   "note": "False for symbols of more than k bits, which are reduced modulo 2^k; exact behaviour is C58."
  },
  {
   "property": "C39",
   "status": "partial",
   "theorems": [
    "C39_no_panic_partial",
    "C39_refuted"
   ],
   "note": "False for inverted ranges (subtraction underflow); exact behaviour is C60."
  },
  {
   "property": "C40",
   "status": "proved",
   "theorems": [
    "C40_iter",
    "C40_iter_u64",
    "C40_iter_sorted",
    "C40_iter_sorted_u64"
   ],
   "note": ""
  },
  {
   "property": "C41",
   "status": "partial",
   "theorems": [
    "C41_partial",
    "C41_refuted"
   ],
   "note": "False on the empty expression (len - 1 underflows) and for excesses near the ends of i64 (overflow); proved for all other inputs, both lookup modules and every block size. Empty expression: C61."
  },
  {
   "property": "C42",
   "status": "partial",
   "theorems": [
    "C42_partial",
    "C42_out_of_range",
    "C42_refuted"
   ],
   "note": "False for block sizes that neither divide the lookup width nor are multiples of it (witness: blocks of 12) and for excesses near the ends of i64; proved for all other inputs."
  },
  {
   "property": "C43",
   "status": "partial",
   "theorems": [
    "C43_partial",
    "handle_closing",
    "C43_refuted"
   ],
   "note": "False for block sizes not aligned with the lookup width (witness: blocks of 12); close holds for every block size. Aligned block sizes: C63."
  },
  {
   "property": "C44",
   "status": "partial",
   "theorems": [
    "C44_partial",
    "C44_refuted"
   ],
   "note": "False for block sizes not aligned with the lookup width; first_child, next_sibling, is_leaf hold for every block size. Aligned block sizes: C64."
  },
  {
   "property": "C45",
   "status": "proved",
   "theorems": [
    "C45_numbering",
    "C45_depth_size",
    "C45_is_ancestor",
    "preorder_complete"
   ],
   "note": "Every block size; encodings of fewer than 2^63 - 2 parentheses."
  },
  {
   "property": "C46",
   "status": "partial",
   "theorems": [
    "C46_partial",
    "level_spec",
    "C46_refuted"
   ],
   "note": "False for level_rightmost(0) on a single node and for levels that do not fit i64 (exact corners: C62); backward searches need an aligned block size (C42)."
  },
  {
   "property": "C47",
   "status": "proved",
   "theorems": [
    "C47_builder",
    "C47_traversal"
   ],
   "note": ""
  },
  {
   "property": "C48",
   "status": "partial",
   "theorems": [
    "C48_partial",
    "C48_refuted"
   ],
   "note": "False for block sizes not aligned with the lookup width (witness: blocks of 12); proved for aligned block sizes (C65); dfs_iter, subtree_iter and children for every block size. The post-order iterators and rev_children use the backward search of C42, which is wrong for other block sizes."
  },
  {
   "property": "C49",
   "status": "partial",
   "theorems": [
    "C49_partial",
    "C49_refuted"
   ],
   "note": "False: see C61 and C62 for the exact outcome."
  },
  {
   "property": "C50",
   "status": "partial",
   "theorems": [
    "C50_partial",
    "C50_refuted"
   ],
   "note": "The claim is false: with more than 16 bits the matching bits of the last chunk are reported twice, and stored bits past the length are reported. Proved: the iterators agree if and only if the vector has at most 16 bits or no stored bit of the last 16-bit chunk matches."
  },
  {
   "property": "C51",
   "status": "proved",
   "theorems": [
    "C51_eq_exact"
   ],
   "note": ""
  },
  {
   "property": "C52",
   "status": "proved",
   "theorems": [
    "C52_bit_vec_iter",
    "C52_rs_vec_iter"
   ],
   "note": ""
  },
  {
   "property": "C53",
   "status": "proved",
   "theorems": [
    "C53_ef_iter",
    "C53_last"
   ],
   "note": ""
  },
  {
   "property": "C54",
   "status": "proved",
   "theorems": [
    "C54_width"
   ],
   "note": "Exact logarithms; f64 rounding is not modelled."
  },
  {
   "property": "C55",
   "status": "partial",
   "theorems": [
    "C55_get_unchecked_partial",
    "C55_get_unchecked_refuted"
   ],
   "note": "Panics left of the first set bit and in vectors without set bits; proved from the first set bit on."
  },
  {
   "property": "C56",
   "status": "proved",
   "theorems": [
    "C56_with_range_exact"
   ],
   "note": ""
  },
  {
   "property": "C57",
   "status": "proved",
   "theorems": [
    "C57_length_limit"
   ],
   "note": ""
  },
  {
   "property": "C58",
   "status": "proved",
   "theorems": [
    "C58_rank_u64",
    "C58_predecessor_u64",
    "C58_successor_u64"
   ],
   "note": ""
  },
  {
   "property": "C59",
   "status": "proved",
   "theorems": [
    "C59_select_offset",
    "C59_select_offset_u64"
   ],
   "note": ""
  },
  {
   "property": "C60",
   "status": "proved",
   "theorems": [
    "C60_inverted"
   ],
   "note": ""
  },
  {
   "property": "C61",
   "status": "proved",
   "theorems": [
    "C61_empty"
   ],
   "note": ""
  },
  {
   "property": "C62",
   "status": "proved",
   "theorems": [
    "C62_corners"
   ],
   "note": ""
  },
  {
   "property": "C63",
   "status": "proved",
   "theorems": [
    "C63_matching",
    "handle_closing"
   ],
   "note": ""
  },
  {
   "property": "C64",
   "status": "proved",
   "theorems": [
    "C64_navigation"
   ],
   "note": ""
  },
  {
   "property": "C65",
   "status": "proved",
   "theorems": [
    "C65_iterators"
   ],
   "note": ""
  },
  {
   "property": "C66",
   "status": "proved",
   "theorems": [
    "C66_no_panic",
    "C66_no_node"
   ],
   "note": ""
  },
  {
   "property": "C67",
   "status": "proved",
   "theorems": [
    "C67_exact"
   ],
   "note": ""
  },
  {
   "property": "C68",
   "status": "proved",
   "theorems": [
    "C68_select",
    "C68_iter"
   ],
   "note": ""
  },
  {
   "property": "C69",
   "status": "proved",
   "theorems": [
    "C69_get_unchecked"
   ],
   "note": ""
  },
  {
   "property": "C70",
   "status": "proved",
   "theorems": [
    "C70_slice",
    "C70_slice_pc",
    "C70_bit_vec",
    "C70_bit_vec_pc"
   ],
   "note": ""
  },
  {
   "property": "C71",
   "status": "proved",
   "theorems": [
    "C71_no_bits",
    "C71_access",
    "C71_rank",
    "C71_select",
    "C71_order",
    "C71_iter"
   ],
   "note": ""
  },
  {
   "property": "C72",
   "status": "proved",
   "theorems": [
    "C72_bit_vec",
    "C72_rs_vec",
    "C72_rs_overhead",
    "C72_rs_overhead_tight"
   ],
   "note": ""
  },
  {
   "property": "C73",
   "status": "partial",
   "theorems": [
    "C73_partial",
    "C73_refuted"
   ],
   "note": "The claim is false when the low parts have width 0 (dense data): every element then costs a 64-bit limb. Proved for positive widths."
  },
  {
   "property": "C74",
   "status": "proved",
   "theorems": [
    "C74_ef_exact",
    "C74_ef_empty",
    "C74_dense",
    "C74_sparse"
   ],
   "note": ""
  },
  {
   "property": "C75",
   "status": "proved",
   "theorems": [
    "C75_binary",
    "C75_fast"
   ],
   "note": ""
  },
  {
   "property": "C76",
   "status": "proved",
   "theorems": [
    "C76_wavelet",
    "C76_wavelet_bound",
    "C76_tree",
    "C76_tree_empty",
    "C76_tree_bound"
   ],
   "note": ""
  },
  {
   "property": "C77",
   "status": "proved",
   "theorems": [
    "C77_rank_range",
    "C77_quantile"
   ],
   "note": ""
  },
  {
   "property": "C78",
   "status": "proved",
   "theorems": [
    "C78_select_offset",
    "C78_select_offset_u64",
    "C78_refuted"
   ],
   "note": "C78_refuted shows that the documented answer (None) is not given."
  },
  {
   "property": "C79",
   "status": "proved",
   "theorems": [
    "C79_binary",
    "C79_fast",
    "C79_inverted",
    "C79_refuted"
   ],
   "note": "C79_refuted: the empty range 0..0 has an answer. FastRmq is covered for ranges that are not inverted."
  },
  {
   "property": "C80",
   "status": "proved",
   "theorems": [
    "C80_nth",
    "C80_bit_vec",
    "C80_rs_vec"
   ],
   "note": ""
  },
  {
   "property": "C81",
   "status": "proved",
   "theorems": [
    "C81_nth_back",
    "C81_refuted"
   ],
   "note": "C81_refuted: next returns an element after len has become 0."
  },
  {
   "property": "C82",
   "status": "proved",
   "theorems": [
    "C82_binary",
    "C82_unique",
    "C82_refuted"
   ],
   "note": "C82_refuted: the index is neither the first nor the last minimum."
  },
  {
   "property": "C83",
   "status": "proved",
   "theorems": [
    "C83_fast",
    "C83_unique",
    "C83_refuted"
   ],
   "note": "C83_refuted: the two structures return different indices on a tie."
  },
  {
   "property": "C84",
   "status": "proved",
   "theorems": [
    "C84_masked_get_bits"
   ],
   "note": ""
  },
  {
   "property": "C85",
   "status": "proved",
   "theorems": [
    "C85_sparse"
   ],
   "note": ""
  },
  {
   "property": "C86",
   "status": "proved",
   "theorems": [
    "C86_wavelet"
   ],
   "note": ""
  },
  {
   "property": "C87",
   "status": "proved",
   "theorems": [
    "C87_rmq"
   ],
   "note": ""
  },
  {
   "property": "C88",
   "status": "proved",
   "theorems": [
    "C88_get_bits_release"
   ],
   "note": ""
  },
  {
   "property": "C89",
   "status": "proved",
   "theorems": [
    "C89_unchecked",
    "C89_get_bits_unchecked",
    "C89_is_empty"
   ],
   "note": ""
  },
  {
   "property": "C90",
   "status": "proved",
   "theorems": [
    "C90_select0",
    "C90_refuted"
   ],
   "note": "C90_refuted: the documented logarithmic worst case does not hold for ranks in the last select block."
  },
  {
   "property": "C91",
   "status": "proved",
   "theorems": [
    "C91_select1",
    "C91_refuted"
   ],
   "note": "C91_refuted: the documented logarithmic worst case does not hold."
  },
  {
   "property": "C92",
   "status": "proved",
   "theorems": [
    "C92_search",
    "C92_refuted"
   ],
   "note": "C92_refuted: with the steps of select0 the worst case is not logarithmic."
  },
  {
   "property": "C93",
   "status": "proved",
   "theorems": [
    "C93_rank"
   ],
   "note": ""
  },
  {
   "property": "C94",
   "status": "proved",
   "theorems": [
    "C94_operations"
   ],
   "note": ""
  },
  {
   "property": "C95",
   "status": "proved",
   "theorems": [
    "C95_node_handle",
    "C95_refuted"
   ],
   "note": "C95_refuted: the documented O(log n) does not hold for node_handle."
  },
  {
   "property": "C96",
   "status": "proved",
   "theorems": [
    "C96_get_unchecked",
    "C96_refuted"
   ],
   "note": "C96_refuted: the documented panic for an index beyond the length does not always occur."
  },
  {
   "property": "C97",
   "status": "proved",
   "theorems": [
    "C97_predecessor_unchecked",
    "C97_successor_unchecked"
   ],
   "note": ""
  },
  {
   "property": "C98",
   "status": "proved",
   "theorems": [
    "C98_pdep",
    "C98_unique",
    "C98_hardware",
    "C98_select"
   ],
   "note": "The instruction is modelled after its published pseudo-code."
  },
  {
   "property": "C99",
   "status": "proved",
   "theorems": [
    "C99_signed",
    "C99_refuted"
   ],
   "note": "C99_refuted: the documented result is not returned for negative masks."
  },
  {
   "property": "C100",
   "status": "proved",
   "theorems": [
    "C100_between",
    "C100_pow2",
    "C100_exact",
    "C100_refuted"
   ],
   "note": "log2 is a parameter with an error below one unit in the last place. C100_refuted: the result is not the exact ceiling for every number."
  },
  {
   "property": "C101",
   "status": "proved",
   "theorems": [
    "C101_width",
    "C101_tree",
    "C101_visible"
   ],
   "note": "log2 is a parameter with an error below one unit in the last place."
  },
  {
   "property": "C102",
   "status": "proved",
   "theorems": [
    "C102_rank",
    "C102_select"
   ],
   "note": ""
  },
  {
   "property": "C103",
   "status": "proved",
   "theorems": [
    "C103_get",
    "C103_refuted"
   ],
   "note": "C103_refuted: the documented panic or empty result does not always occur."
  },
  {
   "property": "C104",
   "status": "proved",
   "theorems": [
    "C104_quantile",
    "C104_sorted",
    "C104_refuted"
   ],
   "note": "C104_refuted: the documented panic or empty bit vector does not occur."
  },
  {
   "property": "C105",
   "status": "proved",
   "theorems": [
    "C105_fwd",
    "C105_bwd",
    "C105_out_of_range"
   ],
   "note": ""
  },
  {
   "property": "C106",
   "status": "proved",
   "theorems": [
    "C106_levels",
    "C106_wrapped",
    "C106_no_node"
   ],
   "note": ""
  },
  {
   "property": "C107",
   "status": "proved",
   "theorems": [
    "C107_inverted",
    "C107_with_range",
    "C107_unique"
   ],
   "note": ""
  },
  {
   "property": "C108",
   "status": "proved",
   "theorems": [
    "C108_reads",
    "C108_append_word",
    "C108_append_bits",
    "C108_append",
    "C108_extend",
    "C108_drop_last",
    "C108_rsvec",
    "C108_pack"
   ],
   "note": ""
  },
  {
   "property": "C109",
   "status": "proved",
   "theorems": [
    "C109_get",
    "C109_rank_select",
    "C109_quantile",
    "C109_checked",
    "C109_ranges"
   ],
   "note": ""
  },
  {
   "property": "C110",
   "status": "proved",
   "theorems": [
    "C110_stored",
    "C110_reads",
    "C110_rsvec",
    "C110_writes",
    "C110_append",
    "C110_split",
    "C110_masked"
   ],
   "note": ""
  },
  {
   "property": "C111",
   "status": "proved",
   "theorems": [
    "C111_binary",
    "C111_fast"
   ],
   "note": ""
  },
  {
   "property": "C112",
   "status": "proved",
   "theorems": [
    "C112_range_min",
    "C112_with_range"
   ],
   "note": ""
  },
  {
   "property": "C113",
   "status": "proved",
   "theorems": [
    "C113_rank",
    "C113_range_min",
    "C113_fast",
    "C113_tight"
   ],
   "note": ""
  },
  {
   "property": "C114",
   "status": "proved",
   "theorems": [
    "C114_select",
    "C114_refuted"
   ],
   "note": ""
  },
  {
   "property": "C115",
   "status": "proved",
   "theorems": [
    "C115_get",
    "C115_rank",
    "C115_quantile",
    "C115_neighbours",
    "C115_tight"
   ],
   "note": ""
  },
  {
   "property": "C116",
   "status": "proved",
   "theorems": [
    "C116_iter1",
    "C116_iter0",
    "C116_no_worse",
    "C116_refuted"
   ],
   "note": ""
  },
  {
   "property": "C117",
   "status": "proved",
   "theorems": [
    "C117_construction",
    "C117_exact",
    "C117_release",
    "C117_refuted"
   ],
   "note": ""
  },
  {
   "property": "C118",
   "status": "proved",
   "theorems": [
    "C118_total",
    "C118_tight"
   ],
   "note": ""
  },
  {
   "property": "C119",
   "status": "proved",
   "theorems": [
    "C119_total",
    "C119_linear",
    "C119_max",
    "C119_refuted"
   ],
   "note": "C119_refuted: the documented constant time of max does not hold."
  },
  {
   "property": "C120",
   "status": "proved",
   "theorems": [
    "C120_back",
    "C120_total"
   ],
   "note": ""
  },
  {
   "property": "C121",
   "status": "proved",
   "theorems": [
    "C121_from_slice",
    "C121_from_bit_vec",
    "C121_from_slice_pc",
    "C121_from_bit_vec_pc",
    "C121_sorting_linear",
    "C121_exponential"
   ],
   "note": ""
  },
  {
   "property": "C122",
   "status": "proved",
   "theorems": [
    "C122_binary",
    "C122_fast",
    "C122_bounds"
   ],
   "note": ""
  },
  {
   "property": "C123",
   "status": "proved",
   "theorems": [
    "C123_slice",
    "C123_slice_pc",
    "C123_bit_vec_pc",
    "C123_pdep"
   ],
   "note": ""
  },
  {
   "property": "C124",
   "status": "partial",
   "theorems": [
    "C124_partial",
    "C124_debug_partial",
    "C124_release",
    "C124_alias",
    "C124_refuted",
    "C124_unchecked_release"
   ],
   "note": "The documented claim is false when index * n overflows (C124_refuted, both builds). C124_debug_partial and C124_release give the exact result for all arguments."
  },
  {
   "property": "C125",
   "status": "proved",
   "theorems": [
    "C125_get_unchecked",
    "C125_agrees",
    "C125_never_panics"
   ],
   "note": ""
  },
  {
   "property": "C126",
   "status": "proved",
   "theorems": [
    "C126_rsvec",
    "C126_elias_fano",
    "C126_elias_fano_linear",
    "C126_sparse",
    "C126_sparse_from_bitvec"
   ],
   "note": ""
  },
  {
   "property": "C127",
   "status": "proved",
   "theorems": [
    "C127_tree",
    "C127_linear"
   ],
   "note": ""
  },
  {
   "property": "C128",
   "status": "proved",
   "theorems": [
    "C128_rank",
    "C128_select",
    "C128_quantile",
    "C128_sorted",
    "C128_extremes"
   ],
   "note": ""
  },
  {
   "property": "C129",
   "status": "proved",
   "theorems": [
    "C129_checked",
    "C129_predecessor_unchecked",
    "C129_successor_unchecked"
   ],
   "note": ""
  },
  {
   "property": "C130",
   "status": "proved",
   "theorems": [
    "C130_get_unchecked"
   ],
   "note": ""
  },
  {
   "property": "C131",
   "status": "proved",
   "theorems": [
    "C131_from_slice",
    "C131_get",
    "C131_sorted"
   ],
   "note": ""
  },
  {
   "property": "C132",
   "status": "proved",
   "theorems": [
    "C132_nodes",
    "C132_fwd_search",
    "C132_bwd_search"
   ],
   "note": ""
  },
  {
   "property": "C133",
   "status": "proved",
   "theorems": [
    "C133_forward",
    "C133_parentheses",
    "C133_backward",
    "C133_post_order"
   ],
   "note": ""
  },
  {
   "property": "C134",
   "status": "partial",
   "theorems": [
    "C134_partial",
    "C134_release",
    "C134_refuted"
   ],
   "note": "The documented statement is false of the code: excess panics beyond the end in debug builds, returns 0 for usize::MAX in release builds, and is_empty is false for a nodeless expression. C134_partial and C134_release give the exact behaviour, C134_refuted the witnesses."
  },
  {
   "property": "C135",
   "status": "proved",
   "theorems": [
    "C135_handles",
    "C135_closing",
    "C135_closing_levels",
    "C135_beyond"
   ],
   "note": ""
  },
  {
   "property": "C136",
   "status": "proved",
   "theorems": [
    "C136_closed",
    "C136_unclosed"
   ],
   "note": ""
  },
  {
   "property": "C137",
   "status": "proved",
   "theorems": [
    "C137_reads",
    "C137_masked",
    "C137_masked_get_bits"
   ],
   "note": ""
  },
  {
   "property": "C138",
   "status": "proved",
   "theorems": [
    "C138_forward",
    "C138_backward",
    "C138_alignment_needed"
   ],
   "note": ""
  },
  {
   "property": "C139",
   "status": "proved",
   "theorems": [
    "C139_elias_fano",
    "C139_rmq"
   ],
   "note": ""
  },
  {
   "property": "C140",
   "status": "proved",
   "theorems": [
    "C140_checked",
    "C140_unchecked",
    "C140_width_0",
    "C140_unsorted",
    "C140_refuted"
   ],
   "note": ""
  },
  {
   "property": "C141",
   "status": "proved",
   "theorems": [
    "C141_iter",
    "C141_inside",
    "C141_last"
   ],
   "note": ""
  },
  {
   "property": "C142",
   "status": "proved",
   "theorems": [
    "C142_get",
    "C142_iter",
    "C142_loop"
   ],
   "note": ""
  },
  {
   "property": "C143",
   "status": "proved",
   "theorems": [
    "C143_inverse",
    "C143_family",
    "C143_ancestors"
   ],
   "note": ""
  },
  {
   "property": "C144",
   "status": "proved",
   "theorems": [
    "C144_elias_fano",
    "C144_wavelet"
   ],
   "note": ""
  }
 ]
}